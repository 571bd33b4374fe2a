(** Lemmas on channels sampled by ray tracers. *)
From Coq Require Import List Reals ZArith Bool Arith Lia Lra.
From Coquelicot Require Import Complex.
From Verif Require Import Base Cplx Cplx_Proofs Chan_Model Chan_Spec Chan_Proofs Ext_Model Ext_Spec.
Import ListNotations.
Open Scope R_scope.

Lemma largest_spec : forall l, l <> [] -> exists m, largest l = Ok m /\ In m l /\ forall a, In a l -> a <= m.
Proof.
  intros [|a l] H; [congruence|]. clear H. cbn [largest]. exists (fold_left Rmax l a). split; [reflexivity|]. revert a.
  induction l as [|b l IH]; intros a; cbn [fold_left].
  - split; [left; reflexivity|]. intros c [->|[]]. lra.
  - destruct (IH (Rmax a b)) as [I G]. split.
    + destruct I as [E|I]; [|right; right; exact I]. rewrite <- E. unfold Rmax. destruct (Rle_dec a b); [right; left|left]; reflexivity.
    + assert (Q : Rmax a b <= fold_left Rmax l (Rmax a b)) by (apply G; left; reflexivity).
      intros c [->|[->|Hc]]; [|..|apply G; right; exact Hc]; [eapply Rle_trans; [|exact Q]; apply Rmax_l|eapply Rle_trans; [|exact Q]; apply Rmax_r].
Qed.

(** ** Sums of sections *)
Lemma fold_sections : forall {V} (from : V -> nat) (len : nat) (val : V -> nat -> nat -> C) (keep : V -> bool) (ok : V -> Prop)
  (step : result (nat -> nat -> C) -> V -> result (nat -> nat -> C)) l a0,
  (forall a v, ok v -> step (Ok a) v = Ok (if keep v then add_section a (from v) len (val v) else a)) -> Forall ok l ->
  exists y, fold_left step l (Ok a0) = Ok y /\
  forall r j, y r j = (a0 r j + total (fun v => if (Nat.leb (from v) j && Nat.ltb j (from v + len))%bool then val v r (j - from v)%nat else RtoC 0) (filter keep l))%C.
Proof.
  intros V from len val keep ok step l. induction l as [|v l IH]; intros a0 Hs Hf; cbn [fold_left total filter].
  - exists a0. split; [reflexivity|]. intros. ring.
  - inversion Hf as [|? ? Hv Hl]; subst. rewrite Hs by exact Hv.
    destruct (IH (if keep v then add_section a0 (from v) len (val v) else a0) Hs Hl) as [y [Ey Hy]].
    exists y. split; [exact Ey|]. intros r j. rewrite Hy. destruct (keep v); [|reflexivity]. cbn [total]. unfold add_section at 1. destruct (_ && _)%bool; ring.
Qed.
Lemma fold_raises : forall {A V} (step : result A -> V -> result A) l e, (forall v, step (Raise e) v = Raise e) -> fold_left step l (Raise e) = Raise e.
Proof. intros A V step l e H. induction l as [|v l IH]; [reflexivity|]. cbn [fold_left]. rewrite H. exact IH. Qed.

(** Taps of states *)
Lemma received_grouped : forall taps (c : csi) s r j,
  (forall d i t, (d < ntaps c)%nat -> (t < streams s)%nat -> h c r t i d = total (fun p => if Nat.eqb d (td p) then weight p r t i else RtoC 0) taps) ->
  received (csi_taps c) s r j = received (before (ntaps c) taps) s r j.
Proof.
  intros taps c s r j H. unfold received at 1, csi_taps. rewrite total_map. cbn [td weight].
  rewrite (total_ext _ (fun d => csum (fun t => total (fun p => if Nat.eqb d (td p) then (if (Nat.leb d j && Nat.ltb j (d + samples s))%bool then weight p r t (j - d) * x s t (j - d) else RtoC 0) else RtoC 0)%C taps) (streams s))).
  2:{ intros d Hd. apply in_seq in Hd. apply csum_ext. intros t Ht. rewrite H by lia. destruct (_ && _)%bool.
      - clear H. induction taps as [|p l IH]; cbn [total]; [ring|]. rewrite <- IH. destruct (Nat.eqb d (td p)); ring.
      - clear H. induction taps as [|p l IH]; cbn [total]; [ring|]. rewrite <- IH. destruct (Nat.eqb d (td p)); ring. }
  clear H. induction taps as [|p l IH].
  - cbn [total before filter]. unfold received. cbn [total]. rewrite (total_ext _ (fun _ => RtoC 0)); [apply total_0|]. intros d _. apply csum_0.
  - cbn [total before filter].
    rewrite (total_ext _ (fun d => (if Nat.eqb d (td p) then csum (fun t => if (Nat.leb d j && Nat.ltb j (d + samples s))%bool then weight p r t (j - d) * x s t (j - d) else RtoC 0) (streams s) else RtoC 0) +
      csum (fun t => total (fun p => if Nat.eqb d (td p) then (if (Nat.leb d j && Nat.ltb j (d + samples s))%bool then weight p r t (j - d) * x s t (j - d) else RtoC 0) else RtoC 0) l) (streams s))%C).
    2:{ intros d _. rewrite csum_plus. f_equal. destruct (Nat.eqb d (td p)); [reflexivity|apply csum_0]. }
    rewrite total_plus, IH, total_delta. fold (before (ntaps c) l). destruct (Nat.ltb (td p) (ntaps c)).
    + unfold received at 2. cbn [total]. reflexivity.
    + ring.
Qed.
Lemma before_all : forall n taps, Forall (fun p => td p < n)%nat taps -> before n taps = taps.
Proof. intros n taps H. induction H as [|p l Hp Hl IH]; [reflexivity|]. unfold before in *. cbn [filter]. replace (Nat.ltb (td p) n) with true by (symmetry; apply Nat.ltb_lt; exact Hp). rewrite IH. reflexivity. Qed.

(** ** Quadriga *)
Lemma q_overhead_spec : forall c, q_paths c <> [] -> 0 <= q_bandwidth c -> exists o, q_overhead c = Ok o /\
  (exists p, In p (q_paths c) /\ o = q_shift c p) /\ forall p, In p (q_paths c) -> (q_shift c p <= o)%nat.
Proof.
  intros c Hp Hb. unfold q_overhead. destruct (largest_spec (map q_delay (q_paths c))) as [m [E [I G]]].
  - destruct (q_paths c); [congruence|discriminate].
  - rewrite E. cbn [bind]. eexists. split; [reflexivity|]. apply in_map_iff in I as [p [Ep Hi]]. split.
    + exists p. split; [exact Hi|]. unfold q_shift. rewrite Ep. reflexivity.
    + intros q Hq. apply in_samples_mono; [exact Hb|]. apply G. apply in_map. exact Hq.
Qed.
Lemma q_propagate_spec : forall c s, q_paths c <> [] -> 0 <= q_bandwidth c -> q_tx c = streams s -> q_rx c = q_back c \/ q_rx c = 1%nat ->
  exists y o, q_overhead c = Ok o /\ q_propagate c s = Ok y /\ streams y = q_back c /\ samples y = (samples s + o)%nat /\ offset y = offset s /\
  forall r j, x y r j = received (quadriga_taps c) s (if Nat.eqb (q_rx c) 1 then 0%nat else r) j.
Proof.
  intros c s Hp Hb Ht Hr. destruct (q_overhead_spec c Hp Hb) as [o [Eo [_ Go]]]. unfold q_propagate. rewrite Eo. cbn [bind].
  match goal with |- context [fold_left ?st ?l ?a] => set (step := st) end.
  destruct (fold_sections (q_shift c) (samples s) (fun p r i => csum (fun t => q_coefficient p (if Nat.eqb (q_rx c) 1 then 0%nat else r) t * x s t i)%C (streams s)) (fun _ => true)
    (fun p => (q_shift c p <= o)%nat) step (q_paths c) (fun _ _ => RtoC 0)) as [y [Ey Hy]].
  - intros a p Hle. unfold step. cbn [bind]. rewrite Ht, Nat.eqb_refl. cbn [negb].
    replace (Nat.eqb (q_rx c) (q_back c) || Nat.eqb (q_rx c) 1)%bool with true by (symmetry; destruct Hr as [->| ->]; rewrite Nat.eqb_refl; rewrite ?orb_true_r; reflexivity).
    replace (Nat.leb (q_shift c p + samples s) (samples s + o)) with true by (symmetry; apply Nat.leb_le; lia). reflexivity.
  - apply Forall_forall. exact Go.
  - rewrite Ey. cbn [bind]. eexists. exists o. split; [reflexivity|]. split; [reflexivity|]. cbn [streams samples offset x]. repeat split.
    intros r j. rewrite Hy, Cplus_0_l. unfold received, quadriga_taps. rewrite total_map. cbn [td weight].
    replace (filter (fun _ => true) (q_paths c)) with (q_paths c) by (clear; induction (q_paths c) as [|a l IH]; [reflexivity|cbn [filter]; rewrite <- IH; reflexivity]).
    assert (K : forall (f : qpath -> C) k l, (total f l * k)%C = total (fun a => f a * k)%C l) by (intros f k l; induction l as [|a l IH]; cbn [total]; [ring|rewrite <- IH; ring]).
    rewrite K. apply total_ext. intros p _. fold (in_samples (q_delay p) (q_bandwidth c)). fold (q_shift c p).
    destruct (_ && _)%bool.
    + rewrite <- csum_scal_r. apply csum_ext. intros t _. ring.
    + rewrite csum_0. ring.
Qed.
Lemma q_state_spec : forall c n taps, q_paths c <> [] -> 0 <= q_bandwidth c -> (forall p, In p (q_paths c) -> (q_shift c p < taps)%nat) ->
  q_rx c = q_tx c \/ q_rx c = 1%nat -> q_tx c = n \/ q_tx c = 1%nat ->
  exists st o, q_overhead c = Ok o /\ q_state c n taps = Ok st /\ format st = Impulse /\ nrx st = q_rx c /\ ntx st = q_tx c /\ nsamples st = n /\ ntaps st = (o + 1)%nat /\
  forall r t i k, h st r t i k = total (fun p => if Nat.eqb k (q_shift c p) then q_coefficient p (if Nat.eqb (q_rx c) 1 then 0%nat else t) (if Nat.eqb (q_tx c) 1 then 0%nat else i) * RtoC (sqrt (q_gain c)) else RtoC 0)%C (q_paths c).
Proof.
  intros c n taps Hp Hb Hk Hr Hn. destruct (q_overhead_spec c Hp Hb) as [o [Eo [[p0 [I0 E0]] Go]]]. unfold q_state. rewrite Eo. cbn [bind].
  replace (Nat.min taps (o + 1)) with (o + 1)%nat by (specialize (Hk p0 I0); lia).
  match goal with |- context [fold_left ?st ?l ?a] => set (step := st) end.
  assert (K : forall l a0, (forall p, In p l -> (q_shift c p <= o)%nat) -> exists e, fold_left step l (Ok a0) = Ok e /\
    forall r t i k, e r t i k = (a0 r t i k + total (fun p => if Nat.eqb k (q_shift c p) then q_coefficient p (if Nat.eqb (q_rx c) 1 then 0%nat else t) (if Nat.eqb (q_tx c) 1 then 0%nat else i) else RtoC 0)%C l)%C).
  { induction l as [|p l IH]; intros a0 Hl; cbn [fold_left total].
    - exists a0. split; [reflexivity|]. intros. ring.
    - unfold step at 2. cbn [bind]. replace (Nat.ltb (q_shift c p) (o + 1)) with true by (symmetry; apply Nat.ltb_lt; specialize (Hl p (or_introl eq_refl)); lia). cbn [negb].
      replace ((Nat.eqb (q_rx c) (q_tx c) || Nat.eqb (q_rx c) 1) && (Nat.eqb (q_tx c) n || Nat.eqb (q_tx c) 1))%bool with true.
      2:{ symmetry. apply andb_true_intro. split; apply orb_true_intro; [destruct Hr; [left|right]|destruct Hn; [left|right]]; apply Nat.eqb_eq; assumption. }
      cbn [negb]. edestruct IH as [e [Ee He]]; [intros q Hq; apply Hl; right; exact Hq|]. rewrite Ee. exists e. split; [reflexivity|].
      intros r t i k. rewrite He. destruct (Nat.eqb k (q_shift c p)); ring. }
  destruct (K (q_paths c) (fun _ _ _ _ => RtoC 0) Go) as [e [Ee He]]. rewrite Ee. cbn [bind]. eexists. exists o. split; [reflexivity|]. split; [reflexivity|].
  cbn [impulse_csi format nrx ntx nsamples ntaps h]. repeat split. intros r t i k. rewrite He, Cplus_0_l.
  clear. induction (q_paths c) as [|p l IH]; cbn [total]; [ring|]. rewrite <- IH. destruct (Nat.eqb k (q_shift c p)); ring.
Qed.

(** ** Sionna *)
Lemma floor_bounds : forall r, IZR (Int_part r) <= r < IZR (Int_part r) + 1.
Proof. intros r. destruct (base_Int_part r). lra. Qed.
Lemma ceil_bounds : forall r, IZR (ceil r) - 1 < r <= IZR (ceil r).
Proof. intros r. unfold ceil. rewrite opp_IZR. pose proof (floor_bounds (- r)). lra. Qed.
Lemma truncate_floor : forall r, 0 <= r -> truncate r = Int_part r /\ (0 <= Int_part r)%Z.
Proof.
  intros r H. unfold truncate. destruct (Rle_dec 0 r); [|lra]. split; [reflexivity|]. pose proof (floor_bounds r).
  apply Z.lt_succ_r. unfold Z.succ. apply lt_IZR. rewrite plus_IZR. lra.
Qed.
Lemma s_shift_spec : forall c p, 0 < s_bandwidth c -> 0 <= s_delay p -> INR (s_shift c p) <= s_delay p * s_bandwidth c < INR (s_shift c p) + 1 /\ s_shift c p = Z.to_nat (Int_part (s_delay p * s_bandwidth c)).
Proof.
  intros c p Hb Hd. unfold s_shift. destruct (truncate_floor (s_delay p * s_bandwidth c)) as [E G]; [apply Rmult_le_pos; lra|].
  rewrite E. split; [|reflexivity]. rewrite INR_IZR_INZ, Z2Nat.id by exact G. apply floor_bounds.
Qed.
Lemma s_overhead_spec : forall c, s_rays c <> [] -> 0 < s_bandwidth c -> exists o m, s_overhead c = Ok o /\ o = ceil (m * s_bandwidth c) /\ (exists p, In p (s_rays c) /\ m = s_delay p) /\
  forall p, In p (s_rays c) -> s_delay p <= m.
Proof.
  intros c Hp Hb. unfold s_overhead. destruct (largest_spec (map s_delay (s_rays c))) as [m [E [I G]]].
  - destruct (s_rays c); [congruence|discriminate].
  - rewrite E. cbn [bind]. eexists. exists m. split; [reflexivity|]. split; [reflexivity|]. apply in_map_iff in I as [p [Ep Hi]]. split.
    + exists p. split; [exact Hi|]. symmetry. exact Ep.
    + intros q Hq. apply G. apply in_map. exact Hq.
Qed.
Lemma valid_spec : forall p, valid p = true <-> 0 <= s_delay p.
Proof. intros p. unfold valid. destruct (Rle_dec 0 (s_delay p)); split; intros; try reflexivity; try assumption; try discriminate; lra. Qed.
(** With a valid ray the overhead is that of the latest one, and no ray is later *)
Lemma s_overhead_valid : forall c p0, traced c -> In p0 (s_rays c) -> valid p0 = true -> exists o m, s_overhead c = Ok (Z.of_nat o) /\ o = Z.to_nat (ceil (m * s_bandwidth c)) /\
  (exists p, In p (s_rays c) /\ valid p = true /\ m = s_delay p /\ INR o - 1 < s_delay p * s_bandwidth c <= INR o) /\
  (forall p, In p (s_rays c) -> s_delay p <= m) /\
  forall p, In p (s_rays c) -> (valid p = true -> (s_shift c p <= o)%nat).
Proof.
  intros c p0 [Hb Hf] I0 V0. destruct (s_overhead_spec c) as [o [m [Eo [Em [[p [Ip Ep]] G]]]]]; [intros E; rewrite E in I0; destruct I0|exact Hb|].
  apply valid_spec in V0. assert (Hm : 0 <= m) by (specialize (G p0 I0); lra).
  pose proof (ceil_bounds (m * s_bandwidth c)) as Hc. rewrite <- Em in Hc.
  assert (P : 0 <= m * s_bandwidth c) by (apply Rmult_le_pos; lra).
  assert (Ho : (0 <= o)%Z) by (apply le_IZR; lra).
  assert (Hi : INR (Z.to_nat o) = IZR o) by (rewrite INR_IZR_INZ, Z2Nat.id by exact Ho; reflexivity).
  exists (Z.to_nat o), m. rewrite Z2Nat.id by exact Ho. split; [exact Eo|]. split; [rewrite Em; reflexivity|]. split; [|split; [exact G|]].
  - exists p. split; [exact Ip|]. split; [apply valid_spec; rewrite <- Ep; exact Hm|]. split; [exact Ep|]. rewrite Hi, <- Ep. exact Hc.
  - intros q Hq Vq. apply valid_spec in Vq. destruct (s_shift_spec c q Hb Vq) as [[L U] _]. apply INR_le. rewrite Hi.
    assert (s_delay q * s_bandwidth c <= m * s_bandwidth c) by (apply Rmult_le_compat_r; [lra|apply G; exact Hq]). lra.
Qed.
Lemma s_propagate_spec : forall c s p0, traced c -> In p0 (s_rays c) -> valid p0 = true ->
  exists y o, s_overhead c = Ok (Z.of_nat o) /\ s_propagate c s = Ok y /\ streams y = s_rx c /\ samples y = (samples s + o)%nat /\ offset y = scaled (offset s) (s_ratio c) /\
  forall r j, x y r j = received (sionna_taps c) s r j.
Proof.
  intros c s p0 Ht I0 V0. destruct (s_overhead_valid c p0 Ht I0 V0) as [o [m [Eo [_ [_ [_ Go]]]]]]. destruct Ht as [Hb Hf]. unfold s_propagate.
  destruct (s_rays c) as [|q l] eqn:El; [destruct I0|]. rewrite <- El in *. clear q l El. rewrite Eo. cbn [bind].
  replace (Z.of_nat (samples s) + Z.of_nat o <? 0)%Z with false by (symmetry; apply Z.ltb_ge; lia).
  replace (Z.to_nat (Z.of_nat (samples s) + Z.of_nat o)) with (samples s + o)%nat by lia.
  match goal with |- context [fold_left ?st ?l ?a] => set (step := st) end.
  destruct (fold_sections (s_shift c) (samples s) (fun p r i => csum (fun t => s_coefficient p i * x s t i)%C (streams s)) valid
    (fun p => (0 <= s_delay p \/ s_delay p = -1) /\ (valid p = true -> (s_shift c p <= o)%nat)) step (s_rays c) (fun _ _ => RtoC 0)) as [y [Ey Hy]].
  - intros a p [Hd Hle]. unfold step. cbn [bind]. destruct (Req_EM_T (s_delay p) (-1)) as [E|N].
    + replace (valid p) with false; [reflexivity|]. unfold valid. destruct (Rle_dec 0 (s_delay p)); [lra|reflexivity].
    + assert (V : valid p = true) by (apply valid_spec; destruct Hd; [assumption|congruence]). rewrite V.
      replace (Nat.leb (s_shift c p + samples s) (samples s + o)) with true by (symmetry; apply Nat.leb_le; specialize (Hle V); lia). reflexivity.
  - apply Forall_forall. intros p Hp. split; [exact (proj1 (Forall_forall _ _) Hf p Hp)|apply Go; exact Hp].
  - rewrite Ey. cbn [bind]. eexists. exists o. split; [reflexivity|]. split; [reflexivity|]. cbn [streams samples offset x]. repeat split.
    intros r j. rewrite Hy, Cplus_0_l. unfold received, sionna_taps. rewrite total_map. cbn [td weight].
    assert (K : forall (f : ray -> C) k l, (total f l * k)%C = total (fun a => f a * k)%C l) by (intros f k l; induction l as [|a l IH]; cbn [total]; [ring|rewrite <- IH; ring]).
    rewrite K. apply total_ext. intros p Hp. apply filter_In in Hp as [_ V]. apply valid_spec in V. destruct (s_shift_spec c p Hb V) as [_ E]. rewrite <- E.
    destruct (_ && _)%bool.
    + rewrite <- csum_scal_r. apply csum_ext. intros t _. ring.
    + rewrite csum_0. ring.
Qed.
Lemma s_state_spec : forall c p0 n taps, traced c -> In p0 (s_rays c) -> valid p0 = true ->
  exists st o, s_overhead c = Ok (Z.of_nat o) /\ s_state c n taps = Ok st /\ format st = Impulse /\ nrx st = s_rx c /\ ntx st = s_tx c /\ nsamples st = n /\ ntaps st = (1 + Nat.min taps o)%nat /\
  forall r t i k, h st r t i k = total (fun p => if Nat.eqb k (td p) then weight p r t i else RtoC 0) (before taps (sionna_taps c)).
Proof.
  intros c p0 n taps Ht I0 V0. destruct (s_overhead_valid c p0 Ht I0 V0) as [o [m [Eo [_ [_ [_ Go]]]]]]. destruct Ht as [Hb Hf]. unfold s_state.
  destruct (s_rays c) as [|q l] eqn:El; [destruct I0|]. rewrite <- El in *. clear q l El. rewrite Eo. cbn [bind].
  replace (1 + Z.min (Z.of_nat taps) (Z.of_nat o) <? 0)%Z with false by (symmetry; apply Z.ltb_ge; lia).
  replace (Z.to_nat (1 + Z.min (Z.of_nat taps) (Z.of_nat o))) with (1 + Nat.min taps o)%nat by lia.
  match goal with |- context [fold_left ?st ?l ?a] => set (step := st) end.
  assert (K : forall l a0, (forall p, In p l -> valid p = true -> (s_shift c p <= o)%nat) -> exists e, fold_left step l (Ok a0) = Ok e /\
    forall i k, e i k = (a0 i k + total (fun p => if Nat.eqb k (s_shift c p) then s_coefficient p i else RtoC 0)%C (filter (fun p => Nat.ltb (s_shift c p) taps) (filter valid l)))%C).
  { induction l as [|p l IH]; intros a0 Hl; cbn [fold_left total filter].
    - exists a0. split; [reflexivity|]. intros. ring.
    - assert (Hl' : forall q, In q l -> valid q = true -> (s_shift c q <= o)%nat) by (intros q Hq; apply Hl; right; exact Hq).
      unfold step at 2. cbn [bind]. destruct (Rlt_dec (s_delay p) 0) as [L|L].
      + replace (valid p) with false by (unfold valid; destruct (Rle_dec 0 (s_delay p)); [lra|reflexivity]). apply IH. exact Hl'.
      + assert (V : valid p = true) by (apply valid_spec; lra). rewrite V. cbn [filter]. destruct (Nat.leb_spec taps (s_shift c p)) as [G|G].
        * replace (Nat.ltb (s_shift c p) taps) with false by (symmetry; apply Nat.ltb_ge; exact G). apply IH. exact Hl'.
        * replace (Nat.ltb (s_shift c p) taps) with true by (symmetry; apply Nat.ltb_lt; exact G).
          replace (Nat.ltb (s_shift c p) (1 + Nat.min taps o)) with true by (symmetry; apply Nat.ltb_lt; specialize (Hl p (or_introl eq_refl) V); lia). cbn [negb].
          edestruct IH as [e [Ee He]]; [exact Hl'|]. rewrite Ee. exists e. split; [reflexivity|]. intros i k. rewrite He. cbn [total]. destruct (Nat.eqb k (s_shift c p)); ring. }
  destruct (K (s_rays c) (fun _ _ => RtoC 0) Go) as [e [Ee He]]. rewrite Ee. cbn [bind]. eexists. exists o. split; [reflexivity|]. split; [reflexivity|].
  cbn [impulse_csi format nrx ntx nsamples ntaps h]. repeat split. intros r t i k. rewrite He, Cplus_0_l. unfold before, sionna_taps.
  assert (Q : forall p, In p (filter valid (s_rays c)) -> s_shift c p = Z.to_nat (Int_part (s_delay p * s_bandwidth c))).
  { intros p Hp. apply filter_In in Hp as [_ V]. apply valid_spec in V. apply s_shift_spec; assumption. }
  revert Q. generalize (filter valid (s_rays c)). clear. intros l. induction l as [|p l IH]; intros Q; cbn [total map filter td]; [ring|].
  rewrite <- (Q p) by (left; reflexivity). specialize (IH (fun q Hq => Q q (or_intror Hq))). destruct (Nat.ltb (s_shift c p) taps); [|exact IH].
  cbn [total td weight]. rewrite <- IH. destruct (Nat.eqb k (s_shift c p)); ring.
Qed.
