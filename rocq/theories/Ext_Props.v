(** C121: channels sampled by external ray tracers, Quadriga and Sionna. *)
From Coq Require Import List Reals ZArith Bool Arith Lia Lra.
From Coquelicot Require Import Complex.
From Verif Require Import Base Cplx Cplx_Proofs Chan_Model Chan_Spec Chan_Proofs Ext_Model Ext_Spec Ext_Proofs.
Import ListNotations.
Open Scope R_scope.

(** A path straight through and a later one *)
Definition some_quadriga (rx tx back : nat) : qsample := QSample rx tx back 10 4 [QPath (3 / 10) (fun r t => RtoC (INR (r + 1)))%C; QPath 0 (fun r t => RtoC (INR t))].
Definition some_signal (streams : nat) : blk := Blk streams 5 2 (fun t i => RtoC (INR (t + i))).
Definition some_sionna : ssample := SSample 2 1 10 4 1 [SRay (1 / 4) (fun i => RtoC (INR i)); SRay (-1) (fun _ => RtoC 0); SRay 0 (fun _ => RtoC 1)].

(** Quadriga: if the transmitting device has as many receiving antennas as the receiver, each of the receiver's streams is the sum of the paths' delayed and weighted copies; it is as much longer as the latest path is late *)
Theorem C121_quadriga_propagation : forall c s, q_paths c <> [] -> 0 <= q_bandwidth c -> q_tx c = streams s -> q_back c = q_rx c ->
  exists y, q_propagate c s = Ok y /\ streams y = q_rx c /\ offset y = offset s /\
  (exists p, In p (quadriga_taps c) /\ samples y = (samples s + td p)%nat) /\ (forall p, In p (quadriga_taps c) -> (samples s + td p <= samples y)%nat) /\
  forall r j, (r < q_rx c)%nat -> x y r j = received (quadriga_taps c) s r j.
Proof.
  intros c s Hp Hb Ht Hr. destruct (q_propagate_spec c s Hp Hb Ht (or_introl (eq_sym Hr))) as [y [o [Eo [Ey [Hs [Hn [Hf Hx]]]]]]].
  destruct (q_overhead_spec c Hp Hb) as [o' [Eo' [[p [Ip Ep]] Go]]]. assert (Eq : o' = o) by congruence. rewrite Eq in Ep, Go.
  exists y. split; [exact Ey|]. split; [congruence|]. split; [exact Hf|]. split; [|split].
  - eexists. split; [unfold quadriga_taps; apply in_map; exact Ip|]. cbn [td]. rewrite Hn, Ep. reflexivity.
  - intros t Hi. unfold quadriga_taps in Hi. apply in_map_iff in Hi as [q [<- Hq]]. cbn [td]. specialize (Go q Hq). unfold q_shift, in_samples in Go. lia.
  - intros r j Hlt. rewrite Hx. destruct (Nat.eqb_spec (q_rx c) 1); [|reflexivity]. replace r with 0%nat by lia. reflexivity.
Qed.
Print Assumptions C121_quadriga_propagation.
Example C121_quadriga_propagation_met : q_paths (some_quadriga 3 2 3) <> [] /\ 0 <= q_bandwidth (some_quadriga 3 2 3) /\ q_tx (some_quadriga 3 2 3) = streams (some_signal 2) /\ q_back (some_quadriga 3 2 3) = q_rx (some_quadriga 3 2 3).
Proof. cbn. repeat split; [discriminate|lra]. Qed.

(** It is the transmitting device's receiving antennas that are counted, though: with another number of them, a receiver of several antennas gets an exception, and one of a single antenna gets that many copies of its stream *)
Theorem C121_quadriga_streams_refuted : forall c s, q_paths c <> [] -> 0 <= q_bandwidth c -> q_tx c = streams s -> q_back c <> q_rx c ->
  (q_rx c <> 1%nat -> q_propagate c s = Raise ValueError) /\
  (q_rx c = 1%nat -> exists y, q_propagate c s = Ok y /\ streams y = q_back c /\ forall r j, x y r j = received (quadriga_taps c) s 0 j).
Proof.
  intros c s Hp Hb Ht Hr. split; intros H1.
  - unfold q_propagate. destruct (q_overhead_spec c Hp Hb) as [o [Eo _]]. rewrite Eo. cbn [bind]. destruct (q_paths c) as [|p l]; [congruence|]. cbn [fold_left bind].
    rewrite Ht, Nat.eqb_refl. cbn [negb]. replace (Nat.eqb (q_rx c) (q_back c)) with false by (symmetry; apply Nat.eqb_neq; congruence).
    replace (Nat.eqb (q_rx c) 1) with false by (symmetry; apply Nat.eqb_neq; exact H1). cbn [orb negb]. rewrite fold_raises; [reflexivity|]. intros. reflexivity.
  - destruct (q_propagate_spec c s Hp Hb Ht (or_intror H1)) as [y [o [Eo [Ey [Hs [Hn [Hf Hx]]]]]]]. exists y. split; [exact Ey|]. split; [exact Hs|].
    intros r j. rewrite Hx, H1. reflexivity.
Qed.
Print Assumptions C121_quadriga_streams_refuted.
Example C121_quadriga_streams_refuted_met : q_propagate (some_quadriga 3 2 1) (some_signal 2) = Raise ValueError /\ exists y, q_propagate (some_quadriga 1 2 4) (some_signal 2) = Ok y /\ streams y = 4%nat.
Proof.
  split.
  - apply C121_quadriga_streams_refuted; cbn; try congruence; try lra; try discriminate.
  - destruct (C121_quadriga_streams_refuted (some_quadriga 1 2 4) (some_signal 2)) as [_ H]; cbn; try congruence; try lra; try discriminate.
    destruct (H eq_refl) as [y [E [S _]]]. exists y. split; assumption.
Qed.

(** The state of a link between single antennas describes the propagation, if there are taps for all paths *)
Theorem C121_quadriga_state : forall c s n taps, q_paths c <> [] -> 0 <= q_bandwidth c -> q_rx c = 1%nat -> q_tx c = 1%nat -> q_back c = 1%nat -> streams s = 1%nat -> (samples s <= n)%nat ->
  (forall p, In p (quadriga_taps c) -> (td p < taps)%nat) ->
  exists st y z, q_state c n taps = Ok st /\ q_propagate c s = Ok y /\ csi_propagate st s = Ok z /\ same_samples y z.
Proof.
  intros c s n taps Hp Hb Hr Ht Hk Hs Hn Htaps.
  destruct (q_propagate_spec c s Hp Hb ltac:(congruence) (or_intror Hr)) as [y [o [Eo [Ey [Ys [Yn [Yo Yx]]]]]]].
  destruct (q_state_spec c n taps Hp Hb) as [st [o' [Eo' [Es [Sf [Sr [St [Sn [Sk Sh]]]]]]]]].
  - intros p Hi. apply (Htaps (Tap (q_shift c p) (fun r t _ => (q_coefficient p r t * RtoC (sqrt (q_gain c)))%C))). unfold quadriga_taps. apply (in_map (fun p => Tap (Z.to_nat (rint (q_delay p * q_bandwidth c))) (fun r t _ => (q_coefficient p r t * RtoC (sqrt (q_gain c)))%C)) _ p Hi).
  - right. exact Hr.
  - right. exact Ht.
  - assert (o' = o) by congruence. subst o'.
    destruct (csi_propagate_received st s) as [z [Ez [Zs [Zn Zx]]]]; [exact Sf|rewrite Sk; lia|congruence|rewrite Sn; exact Hn|].
    exists st, y, z. repeat (split; [assumption|]). unfold same_samples. rewrite Ys, Zs, Yn, Zn, Sr, Hr, Hk, Sk. split; [reflexivity|]. split; [lia|]. intros r j Hr0 Hj.
    replace r with 0%nat by lia. rewrite Yx, Zx by lia. rewrite Hr. cbn [Nat.eqb]. rewrite (received_grouped (quadriga_taps c)).
    + rewrite before_all; [reflexivity|]. apply Forall_forall. intros t Hi. unfold quadriga_taps in Hi. apply in_map_iff in Hi as [q [<- Hq]]. cbn [td]. rewrite Sk.
      destruct (q_overhead_spec c Hp Hb) as [o' [Eo2 [_ Go]]]. assert (o' = o) by congruence. subst o'. specialize (Go q Hq). unfold q_shift, in_samples in Go. lia.
    + intros d i t Hd Hti. rewrite Sh, Hr, Ht. cbn [Nat.eqb]. unfold quadriga_taps. rewrite total_map. replace t with 0%nat by lia. reflexivity.
Qed.
Print Assumptions C121_quadriga_state.
Example C121_quadriga_state_met : let c := some_quadriga 1 1 1 in q_rx c = 1%nat /\ streams (some_signal 1) = 1%nat /\ (samples (some_signal 1) <= 7)%nat /\ forall p, In p (quadriga_taps c) -> (td p < 4)%nat.
Proof.
  cbv zeta. split; [reflexivity|]. split; [reflexivity|]. split; [cbn; lia|]. intros p [<-|[<-|[]]]; cbn [td some_quadriga q_bandwidth q_delay].
  - replace (3 / 10 * 10) with (IZR 3) by lra. replace (rint (IZR 3)) with 3%Z; [cbn; lia|]. unfold rint.
    assert (E : Int_part (IZR 3) = 3%Z). { pose proof (floor_bounds (IZR 3)) as B. apply Z.le_antisymm; [apply le_IZR; lra|apply Z.lt_succ_r, lt_IZR; unfold Z.succ; rewrite plus_IZR; lra]. }
    rewrite E. destruct (Rlt_dec (IZR 3 - IZR 3) (1 / 2)); [reflexivity|lra].
  - replace (0 * 10) with (IZR 0) by lra. replace (rint (IZR 0)) with 0%Z; [cbn; lia|]. unfold rint.
    assert (E : Int_part (IZR 0) = 0%Z). { pose proof (floor_bounds (IZR 0)) as B. apply Z.le_antisymm; [apply Z.lt_succ_r, lt_IZR; unfold Z.succ; rewrite plus_IZR; lra|apply Z.lt_succ_r, lt_IZR; unfold Z.succ; rewrite plus_IZR; lra]. }
    rewrite E. destruct (Rlt_dec (IZR 0 - IZR 0) (1 / 2)); [reflexivity|lra].
Qed.

(** Otherwise there is none: a path beyond the taps raises an exception, and so do several transmitting antennas unless there are as many samples; if there are, the state of a square link
    confuses dimensions: all receiving antennas are said to receive the same, and what the coefficients say of pairs of antennas is said of antennas and samples *)
Theorem C121_quadriga_state_refuted : forall c n taps, q_paths c <> [] -> 0 <= q_bandwidth c ->
  ((exists p, In p (quadriga_taps c) /\ (taps <= td p)%nat) -> exists e, q_state c n taps = Raise e) /\
  ((1 < q_tx c)%nat -> q_tx c <> n -> exists e, q_state c n taps = Raise e) /\
  ((1 < q_tx c)%nat -> q_tx c = n -> q_rx c = q_tx c -> (forall p, In p (quadriga_taps c) -> (td p < taps)%nat) ->
   exists st, q_state c n taps = Ok st /\ forall r t i k, h st r t i k = total (fun p => if Nat.eqb k (td p) then weight p t i 0%nat else RtoC 0) (quadriga_taps c)).
Proof.
  intros c n taps Hp Hb. destruct (q_overhead_spec c Hp Hb) as [o [Eo [_ Go]]]. split; [|split].
  - intros [p [Hi Hl]]. unfold quadriga_taps in Hi. apply in_map_iff in Hi as [q [<- Hq]]. cbn [td] in Hl. fold (in_samples (q_delay q) (q_bandwidth c)) in Hl. fold (q_shift c q) in Hl.
    unfold q_state. rewrite Eo. cbn [bind]. match goal with |- context [fold_left ?st ?l ?a] => set (step := st) end.
    assert (K : forall l a0, In q l -> exists e, fold_left step l a0 = Raise e).
    { induction l as [|v l IH]; intros a0 []; cbn [fold_left].
      - subst v. destruct a0 as [a|e].
        + unfold step at 2. cbn [bind]. replace (Nat.ltb (q_shift c q) (Nat.min taps (o + 1))) with false by (symmetry; apply Nat.ltb_ge; lia). cbn [negb]. exists IndexError. apply fold_raises. intros. reflexivity.
        + exists e. unfold step at 2. cbn [bind]. apply fold_raises. intros. reflexivity.
      - apply IH. assumption. }
    destruct (K (q_paths c) (Ok (fun _ _ _ _ => RtoC 0)) Hq) as [e Ee]. rewrite Ee. exists e. reflexivity.
  - intros Ht Hn. unfold q_state. rewrite Eo. cbn [bind]. destruct (q_paths c) as [|p l]; [congruence|]. cbn [fold_left bind].
    replace (Nat.eqb (q_tx c) n || Nat.eqb (q_tx c) 1)%bool with false by (symmetry; apply orb_false_intro; apply Nat.eqb_neq; lia). rewrite andb_false_r. cbn [negb].
    destruct (Nat.ltb (q_shift c p) (Nat.min taps (o + 1))); cbn [negb]; (rewrite fold_raises; [eexists; reflexivity|intros; reflexivity]).
  - intros Ht Hn Hr Htaps. destruct (q_state_spec c n taps Hp Hb) as [st [o' [_ [Es [_ [_ [_ [_ [_ Sh]]]]]]]]].
    + intros p Hi. apply (Htaps (Tap (q_shift c p) (fun r t _ => (q_coefficient p r t * RtoC (sqrt (q_gain c)))%C))). unfold quadriga_taps. apply (in_map (fun p => Tap (Z.to_nat (rint (q_delay p * q_bandwidth c))) (fun r t _ => (q_coefficient p r t * RtoC (sqrt (q_gain c)))%C)) _ p Hi).
    + left. exact Hr.
    + left. exact Hn.
    + exists st. split; [exact Es|]. intros r t i k. rewrite Sh. unfold quadriga_taps. rewrite total_map. apply total_ext. intros p _. cbn [td weight].
      replace (Nat.eqb (q_rx c) 1) with false by (symmetry; apply Nat.eqb_neq; lia). replace (Nat.eqb (q_tx c) 1) with false by (symmetry; apply Nat.eqb_neq; lia). reflexivity.
Qed.
Print Assumptions C121_quadriga_state_refuted.
Example C121_quadriga_state_refuted_met : exists e, q_state (some_quadriga 2 2 2) 5 8 = Raise e.
Proof. apply C121_quadriga_state_refuted; cbn; [discriminate|lra|lia|lia]. Qed.

(** Sionna: with a valid ray each receiving antenna gets the sum of all valid rays' delayed and weighted copies of all transmitted streams; it is longer by the latest one's delay, in whole samples or the next *)
Theorem C121_sionna_propagation : forall c s, traced c -> (exists p, In p (s_rays c) /\ 0 <= s_delay p) ->
  exists y o, s_propagate c s = Ok y /\ streams y = s_rx c /\ samples y = (samples s + o)%nat /\
  (exists p, In p (s_rays c) /\ INR o - 1 < s_delay p * s_bandwidth c <= INR o /\ forall q, In q (s_rays c) -> s_delay q <= s_delay p) /\
  (forall p, In p (sionna_taps c) -> (td p <= o)%nat) /\
  forall r j, x y r j = received (sionna_taps c) s r j.
Proof.
  intros c s Ht [p0 [I0 V0]]. apply valid_spec in V0. destruct (s_propagate_spec c s p0 Ht I0 V0) as [y [o [Eo [Ey [Ys [Yn [_ Yx]]]]]]].
  destruct (s_overhead_valid c p0 Ht I0 V0) as [o' [m [Eo' [_ [[p [Ip [_ [Ep Bp]]]] [Gm Go]]]]]]. assert (o' = o) by (apply Nat2Z.inj; congruence). subst o'.
  exists y, o. split; [exact Ey|]. split; [exact Ys|]. split; [exact Yn|]. split; [|split; [|exact Yx]].
  - exists p. split; [exact Ip|]. split; [exact Bp|]. intros q Hq. rewrite <- Ep. apply Gm. exact Hq.
  - intros t Hi. unfold sionna_taps in Hi. apply in_map_iff in Hi as [q [<- Hq]]. cbn [td]. apply filter_In in Hq as [Hq Vq]. specialize (Go q Hq Vq).
    apply valid_spec in Vq. destruct Ht as [Hb _]. destruct (s_shift_spec c q Hb Vq) as [_ E]. rewrite <- E. exact Go.
Qed.
Print Assumptions C121_sionna_propagation.
Example C121_sionna_propagation_met : traced some_sionna /\ exists p, In p (s_rays some_sionna) /\ 0 <= s_delay p.
Proof.
  split.
  - split; [cbn; lra|]. cbn [some_sionna s_rays]. apply Forall_cons; [left; cbn; lra|]. apply Forall_cons; [right; reflexivity|]. apply Forall_cons; [left; cbn; lra|]. apply Forall_nil.
  - eexists. split; [left; reflexivity|]. cbn. lra.
Qed.

(** Its state always exists then, and consists of the rays arriving within the taps asked for; if all do it describes the propagation *)
Theorem C121_sionna_state : forall c s n taps, traced c -> (exists p, In p (s_rays c) /\ 0 <= s_delay p) -> s_tx c = streams s -> (samples s <= n)%nat ->
  exists st z, s_state c n taps = Ok st /\ csi_propagate st s = Ok z /\ streams z = s_rx c /\ (ntaps st <= taps + 1)%nat /\
  (forall r j, (r < s_rx c)%nat -> x z r j = received (before taps (sionna_taps c)) s r j) /\
  ((forall p, In p (sionna_taps c) -> (td p < taps)%nat) -> exists y, s_propagate c s = Ok y /\ same_samples y z).
Proof.
  intros c s n taps Ht [p0 [I0 V0]] Hs Hn. apply valid_spec in V0. destruct (s_state_spec c p0 n taps Ht I0 V0) as [st [o [Eo [Es [Sf [Sr [St [Sn [Sk Sh]]]]]]]]].
  destruct (csi_propagate_received st s) as [z [Ez [Zs [Zn Zx]]]]; [exact Sf|rewrite Sk; lia|congruence|rewrite Sn; exact Hn|].
  destruct (s_overhead_valid c p0 Ht I0 V0) as [o' [m [Eo' [_ [[p [Ip [Vp [Ep Bp]]]] [Gm Go]]]]]]. assert (o' = o) by (apply Nat2Z.inj; congruence). subst o'.
  assert (Q : forall q, In q (s_rays c) -> valid q = true -> s_shift c q = Z.to_nat (Int_part (s_delay q * s_bandwidth c))).
  { intros q Hq Vq. apply valid_spec in Vq. destruct Ht as [Hb _]. apply s_shift_spec; assumption. }
  assert (X : forall r j, (r < s_rx c)%nat -> x z r j = received (before taps (sionna_taps c)) s r j).
  { intros r j Hr. rewrite Zx by lia. rewrite (received_grouped (before taps (sionna_taps c))) by (intros; apply Sh). rewrite before_all; [reflexivity|].
    apply Forall_forall. intros t Hi. unfold before in Hi. apply filter_In in Hi as [Hi Hlt]. apply Nat.ltb_lt in Hlt. rewrite Sk.
    unfold sionna_taps in Hi. apply in_map_iff in Hi as [q [<- Hq]]. cbn [td] in *. apply filter_In in Hq as [Hq Vq]. specialize (Go q Hq Vq). rewrite (Q q Hq Vq) in Go. lia. }
  exists st, z. split; [exact Es|]. split; [exact Ez|]. split; [congruence|]. split; [rewrite Sk; lia|]. split; [exact X|].
  intros Hall. destruct (s_propagate_spec c s p0 Ht I0 V0) as [y [o' [Eo2 [Ey [Ys [Yn [_ Yx]]]]]]]. assert (o' = o) by (apply Nat2Z.inj; congruence). subst o'.
  exists y. split; [exact Ey|]. assert (Hle : (o <= taps)%nat).
  { assert (L : (s_shift c p < taps)%nat).
    { rewrite (Q p Ip Vp). apply (Hall (Tap (Z.to_nat (Int_part (s_delay p * s_bandwidth c))) (fun _ _ i => (s_coefficient p i * RtoC (sqrt (s_gain c)))%C))).
      unfold sionna_taps. apply (in_map (fun p => Tap (Z.to_nat (Int_part (s_delay p * s_bandwidth c))) (fun _ _ i => (s_coefficient p i * RtoC (sqrt (s_gain c)))%C))). apply filter_In. split; assumption. }
    apply valid_spec in Vp. destruct Ht as [Hb _]. destruct (s_shift_spec c p Hb Vp) as [[_ U] _].
    assert (P : (o < s_shift c p + 2)%nat) by (apply INR_lt; rewrite plus_INR; cbn [INR]; lra). lia. }
  unfold same_samples. rewrite Ys, Zs, Yn, Zn, Sk, Sr. split; [reflexivity|]. split; [lia|]. intros r j Hr _. rewrite Yx, X by exact Hr.
  rewrite before_all; [reflexivity|]. apply Forall_forall. exact Hall.
Qed.
Print Assumptions C121_sionna_state.
Example C121_sionna_state_met : traced some_sionna /\ (exists p, In p (s_rays some_sionna) /\ 0 <= s_delay p) /\ s_tx some_sionna = streams (some_signal 1) /\ (samples (some_signal 1) <= 5)%nat /\
  forall p, In p (sionna_taps some_sionna) -> (td p < 3)%nat.
Proof.
  destruct C121_sionna_propagation_met as [T V]. split; [exact T|]. split; [exact V|]. split; [reflexivity|]. split; [cbn; lia|].
  intros t Hi. unfold sionna_taps in Hi. apply in_map_iff in Hi as [q [<- Hq]]. cbn [td]. apply filter_In in Hq as [Hq Vq]. apply valid_spec in Vq.
  destruct T as [Hb _]. destruct (s_shift_spec some_sionna q Hb Vq) as [[L _] E]. rewrite <- E. apply INR_lt. destruct Hq as [<-|[<-|[<-|[]]]]; cbn [some_sionna s_delay s_bandwidth] in *; cbn [INR]; lra.
Qed.

(** Without any ray nothing arrives; Quadriga raises an exception instead *)
Theorem C121_no_path : forall c d s n taps, s_rays c = [] -> q_paths d = [] ->
  (exists y, s_propagate c s = Ok y /\ streams y = s_rx c /\ forall r j, x y r j = RtoC 0) /\
  (exists st, s_state c n taps = Ok st /\ forall r t i k, h st r t i k = RtoC 0) /\
  q_propagate d s = Raise ValueError /\ q_state d n taps = Raise ValueError.
Proof.
  intros c d s n taps Hc Hd. split; [|split; [|split]].
  - unfold s_propagate. rewrite Hc. eexists. split; [reflexivity|]. cbn [streams x]. split; reflexivity.
  - unfold s_state. rewrite Hc. cbn [bind fold_left]. assert (E : ceil (0 * s_bandwidth c) = 0%Z).
    { rewrite Rmult_0_l. pose proof (ceil_bounds 0). apply Z.le_antisymm; [apply Z.lt_succ_r, lt_IZR; unfold Z.succ; rewrite plus_IZR; lra|apply le_IZR; lra]. }
    rewrite E. replace (1 + Z.min (Z.of_nat taps) 0 <? 0)%Z with false by (symmetry; apply Z.ltb_ge; lia). eexists. split; [reflexivity|]. intros. cbn [impulse_csi h]. ring.
  - unfold q_propagate, q_overhead. rewrite Hd. reflexivity.
  - unfold q_state, q_overhead. rewrite Hd. reflexivity.
Qed.
Print Assumptions C121_no_path.
Example C121_no_path_met : s_rays (SSample 2 2 10 1 1 []) = [] /\ q_paths (QSample 2 2 2 10 1 []) = [].
Proof. split; reflexivity. Qed.

(** Rays that are all marked as not valid are no silence either: the state cannot be had, nor can signals shorter than a second be propagated, and longer ones get a second shorter *)
Theorem C121_sionna_invalid_refuted : forall c s n taps, 2 < s_bandwidth c -> s_rays c <> [] -> Forall (fun p => s_delay p = -1) (s_rays c) ->
  s_state c n taps = Raise ValueError /\
  (INR (samples s) + 1 <= s_bandwidth c -> s_propagate c s = Raise ValueError) /\
  (s_bandwidth c <= INR (samples s) -> exists y, s_propagate c s = Ok y /\ INR (samples s) - s_bandwidth c <= INR (samples y) < INR (samples s) - s_bandwidth c + 1).
Proof.
  intros c s n taps Hb Hp Hf. destruct (s_overhead_spec c Hp ltac:(lra)) as [o [m [Eo [Em [[p [Ip Ep]] _]]]]].
  assert (M : m = -1) by (rewrite Ep; exact (proj1 (Forall_forall _ _) Hf p Ip)). rewrite M in Em. pose proof (ceil_bounds (-1 * s_bandwidth c)) as B. rewrite <- Em in B.
  assert (Hr : exists q l, s_rays c = q :: l) by (destruct (s_rays c) as [|q l]; [congruence|exists q, l; reflexivity]). destruct Hr as [q [l El]].
  assert (O : (o <= -2)%Z) by (apply Z.lt_succ_r, lt_IZR; unfold Z.succ; rewrite plus_IZR; lra).
  split; [|split].
  - unfold s_state. rewrite El, Eo. cbn [bind]. replace (1 + Z.min (Z.of_nat taps) o <? 0)%Z with true by (symmetry; apply Z.ltb_lt; lia). reflexivity.
  - intros Hs. unfold s_propagate. rewrite El, Eo. cbn [bind]. replace (Z.of_nat (samples s) + o <? 0)%Z with true; [reflexivity|]. symmetry. apply Z.ltb_lt. apply lt_IZR. rewrite plus_IZR, <- INR_IZR_INZ. lra.
  - intros Hs. unfold s_propagate. rewrite El, Eo. cbn [bind]. assert (N : (0 <= Z.of_nat (samples s) + o)%Z) by (apply le_IZR; rewrite plus_IZR, <- INR_IZR_INZ; lra).
    replace (Z.of_nat (samples s) + o <? 0)%Z with false by (symmetry; apply Z.ltb_ge; exact N). rewrite <- El.
    match goal with |- context [fold_left ?st ?l ?a] => set (step := st) end.
    assert (K : forall l a, Forall (fun p => s_delay p = -1) l -> fold_left step l (Ok a) = Ok a).
    { induction l0 as [|v l0 IH]; intros a H; [reflexivity|]. inversion H as [|? ? Hv Hl]; subst. cbn [fold_left]. unfold step at 2. cbn [bind]. destruct (Req_EM_T (s_delay v) (-1)); [|congruence]. apply IH. exact Hl. }
    rewrite (K (s_rays c) _ Hf). cbn [bind]. eexists. split; [reflexivity|]. cbn [samples]. rewrite (INR_IZR_INZ (Z.to_nat _)), Z2Nat.id by exact N. rewrite plus_IZR, <- INR_IZR_INZ. lra.
Qed.
Print Assumptions C121_sionna_invalid_refuted.
Example C121_sionna_invalid_refuted_met : s_propagate (SSample 1 1 10 1 1 [SRay (-1) (fun _ => RtoC 0)]) (some_signal 1) = Raise ValueError.
Proof. apply (C121_sionna_invalid_refuted _ _ 0%nat 0%nat); cbn [s_bandwidth s_rays some_signal samples INR]; [lra|discriminate|constructor; [reflexivity|constructor]|lra]. Qed.

(** Signals are not resampled to the receiver's rate: only the block's offset is, and the length of silence *)
Theorem C121_sionna_rate_refuted : forall c s, traced c -> (exists p, In p (s_rays c) /\ 0 <= s_delay p) -> s_ratio c = 1 / 2 ->
  (exists y, s_propagate c s = Ok y /\ (samples s <= samples y)%nat /\ (2 * offset y <= offset s)%nat) /\
  exists y, s_propagate (SSample (s_rx c) (s_tx c) (s_bandwidth c) (s_gain c) (s_ratio c) []) s = Ok y /\ (2 * samples y <= samples s)%nat.
Proof.
  intros c s Ht [p0 [I0 V0]] Hr. apply valid_spec in V0.
  assert (K : forall n, (2 * scaled n (1 / 2) <= n)%nat).
  { intros n. unfold scaled. pose proof (pos_INR n) as P. destruct (truncate_floor (INR n * (1 / 2))) as [E G]; [lra|]. rewrite E. apply INR_le. rewrite mult_INR, (INR_IZR_INZ (Z.to_nat _)), Z2Nat.id by exact G.
    pose proof (floor_bounds (INR n * (1 / 2))). cbn [INR]. lra. }
  split.
  - destruct (s_propagate_spec c s p0 Ht I0 V0) as [y [o [_ [Ey [_ [Yn [Yo _]]]]]]]. exists y. split; [exact Ey|]. split; [lia|]. rewrite Yo, Hr. apply K.
  - eexists. split; [reflexivity|]. cbn [samples s_ratio]. rewrite Hr. apply K.
Qed.
Print Assumptions C121_sionna_rate_refuted.
Example C121_sionna_rate_refuted_met : let c := SSample 2 1 10 4 (1 / 2) (s_rays some_sionna) in traced c /\ (exists p, In p (s_rays c) /\ 0 <= s_delay p) /\ s_ratio c = 1 / 2.
Proof. cbv zeta. destruct C121_sionna_propagation_met as [[B F] V]. repeat split; assumption. Qed.

(** The energy scales are not those of the channels: two rays of opposite coefficients and different delays have none though both arrive, and the gain is left out; Quadriga's may even be negative *)
Theorem C121_energy_refuted : forall delay bandwidth gain a, 0 < a -> 1 <= delay * bandwidth -> 0 < bandwidth -> 0 < gain ->
  let c := SSample 1 1 bandwidth gain 1 [SRay 0 (fun _ => RtoC a); SRay delay (fun _ => RtoC (- a))] in
  let one := Blk 1 1 0 (fun _ _ => RtoC 1) in
  s_scale c = 0 /\ (exists y, s_propagate c one = Ok y /\ x y 0%nat 0%nat = RtoC (a * sqrt gain)) /\
  q_scale (QSample 1 1 1 bandwidth gain [QPath 0 (fun _ _ => RtoC (- a))]) < 0.
Proof.
  intros delay bandwidth gain a Ha Hd Hb Hg c one. assert (D : 0 < delay) by (destruct (Rle_or_lt delay 0); [nra|assumption]). split; [|split].
  - unfold s_scale, c. cbn [s_rays map fold_right s_coefficient]. replace (RtoC a + (RtoC (- a) + RtoC 0))%C with (RtoC 0); [apply Cmod_0|]. unfold RtoC, Cplus. cbn [fst snd]. f_equal; ring.
  - assert (T : traced c). { split; [exact Hb|]. unfold c. cbn [s_rays]. constructor; [left; cbn; lra|]. constructor; [left; cbn; lra|constructor]. }
    destruct (s_propagate_spec c one (SRay 0 (fun _ => RtoC a)) T) as [y [o [_ [Ey [_ [_ [_ Yx]]]]]]]; [left; reflexivity|apply valid_spec; cbn; lra|].
    exists y. split; [exact Ey|]. rewrite Yx. unfold sionna_taps, c. cbn [s_rays filter]. unfold valid. cbn [s_delay]. destruct (Rle_dec 0 0); [|lra]. destruct (Rle_dec 0 delay); [|lra].
    cbn [map s_delay s_bandwidth s_coefficient s_gain]. unfold received. cbn [total td weight one streams samples x csum].
    assert (E0 : Z.to_nat (Int_part (0 * bandwidth)) = 0%nat).
    { rewrite Rmult_0_l. pose proof (floor_bounds 0). assert (Int_part 0 <= 0)%Z by (apply le_IZR; lra). lia. }
    assert (E1 : (1 <= Z.to_nat (Int_part (delay * bandwidth)))%nat).
    { pose proof (floor_bounds (delay * bandwidth)). assert (1 < Int_part (delay * bandwidth) + 1)%Z by (apply lt_IZR; rewrite plus_IZR; lra). lia. }
    rewrite E0. cbn [Nat.leb Nat.add Nat.ltb andb Nat.sub]. destruct (Z.to_nat (Int_part (delay * bandwidth))) as [|k]; [lia|]. cbn [Nat.leb andb].
    unfold RtoC, Cplus, Cmult. cbn [fst snd]. f_equal; ring.
  - unfold q_scale. cbn [q_gain q_paths q_rx q_tx seq map flat_map app fold_right q_coefficient]. unfold RtoC. cbn [fst]. nra.
Qed.
Print Assumptions C121_energy_refuted.
Example C121_energy_refuted_met : 0 < 1 /\ 1 <= (3 / 10) * 10 /\ 0 < 10 /\ 0 < 4.
Proof. repeat split; lra. Qed.
(** For a single path between single antennas, the energy scale is the gain times the real part of the coefficient at Quadriga, and its modulus at Sionna *)
Theorem C121_energy_scale_of_a_path : forall back bandwidth gain delay ratio z,
  q_scale (QSample 1 1 back bandwidth gain [QPath delay (fun _ _ => z)]) = gain * fst z /\
  s_scale (SSample 1 1 bandwidth gain ratio [SRay delay (fun _ => z)]) = Cmod z.
Proof.
  intros. split.
  - unfold q_scale. cbn [q_gain q_paths q_rx q_tx seq map flat_map app fold_right q_coefficient]. ring.
  - unfold s_scale. cbn [s_rays map fold_right s_coefficient]. f_equal. ring.
Qed.
Print Assumptions C121_energy_scale_of_a_path.
