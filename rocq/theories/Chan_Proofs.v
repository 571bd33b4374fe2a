From Coq Require Import List Reals ZArith Bool Arith Lra Lia.
From Coquelicot Require Import Complex.
From Verif Require Import Base BaseLemmas Cplx Cplx_Proofs Chan_Model Chan_Spec.
Import ListNotations.
Open Scope R_scope.

(** ** Rounding is monotone *)
Lemma floor_spec : forall r, IZR (Int_part r) <= r < IZR (Int_part r) + 1.
Proof. intros r. pose proof (base_Int_part r). lra. Qed.
Lemma rint_cases : forall r, let f := Int_part r in
  (rint r = f /\ r - IZR f <= 1 / 2) \/ (rint r = (f + 1)%Z /\ 1 / 2 <= r - IZR f).
Proof.
  intros r f. unfold rint. fold f. destruct (Rlt_dec (r - IZR f) (1 / 2)); [left; split; [reflexivity|lra]|].
  destruct (Rlt_dec (1 / 2) (r - IZR f)); [right; split; [reflexivity|lra]|]. destruct (Z.even f); [left|right]; split; try reflexivity; lra.
Qed.
Lemma rint_mono : forall a b, a <= b -> (rint a <= rint b)%Z.
Proof.
  intros a b Hab. destruct (Req_dec a b) as [->|Hne]; [lia|]. pose proof (floor_spec a) as Fa. pose proof (floor_spec b) as Fb.
  assert (Hf : (Int_part a <= Int_part b)%Z) by (apply Z.lt_succ_r, lt_IZR; unfold Z.succ; rewrite plus_IZR; lra).
  destruct (rint_cases a) as [[-> Ha]|[-> Ha]]; destruct (rint_cases b) as [[-> Hb]|[-> Hb]]; try lia.
  destruct (Z.eq_dec (Int_part a) (Int_part b)) as [E|E]; [|lia]. rewrite E in *. lra.
Qed.
Lemma in_samples_mono : forall a b w, 0 <= w -> a <= b -> (in_samples a w <= in_samples b w)%nat.
Proof. intros a b w Hw Hab. unfold in_samples. pose proof (rint_mono (a * w) (b * w) ltac:(apply Rmult_le_compat_r; assumption)). lia. Qed.
Lemma fold_max_ge : forall l p, In p l -> p_delay p <= fold_right Rmax 0 (map p_delay l).
Proof.
  induction l as [|q l IH]; intros p []; cbn [map fold_right].
  - subst q. apply Rmax_l.
  - eapply Rle_trans; [apply IH; assumption|apply Rmax_r].
Qed.
Lemma path_delay_max : forall c p, 0 <= f_bandwidth c -> In p (paths c) -> (path_delay c p <= in_samples (max_delay c) (f_bandwidth c))%nat.
Proof. intros c p Hb Hp. apply in_samples_mono; [exact Hb|]. apply fold_max_ge, Hp. Qed.

(** ** Totals *)
Lemma total_ext : forall {A} (f g : A -> C) l, (forall a, In a l -> f a = g a) -> total f l = total g l.
Proof. intros A f g l. induction l as [|a l IH]; intros H; [reflexivity|]. cbn [total]. rewrite (H a (or_introl eq_refl)), IH by (intros; apply H; right; assumption). reflexivity. Qed.
Lemma total_plus : forall {A} (f g : A -> C) l, total (fun a => f a + g a)%C l = (total f l + total g l)%C.
Proof. intros A f g l. induction l as [|a l IH]; cbn [total]; [ring|]. rewrite IH. ring. Qed.
Lemma total_scal : forall {A} c (f : A -> C) l, total (fun a => c * f a)%C l = (c * total f l)%C.
Proof. intros A c f l. induction l as [|a l IH]; cbn [total]; [ring|]. rewrite IH. ring. Qed.
Lemma total_0 : forall {A} (l : list A), total (fun _ => RtoC 0) l = RtoC 0.
Proof. intros A l. induction l as [|a l IH]; cbn [total]; [ring|]. rewrite IH. ring. Qed.
Lemma total_app : forall {A} (f : A -> C) l m, total f (l ++ m) = (total f l + total f m)%C.
Proof. intros A f l m. induction l as [|a l IH]; cbn [total app]; [ring|]. rewrite IH. ring. Qed.
Lemma total_map : forall {A B} (f : B -> C) (g : A -> B) l, total f (map g l) = total (fun a => f (g a)) l.
Proof. intros A B f g l. induction l as [|a l IH]; cbn [total map]; [reflexivity|]. rewrite IH. reflexivity. Qed.
Lemma total_flat_map : forall {A B} (f : B -> C) (g : A -> list B) l, total f (flat_map g l) = total (fun a => total f (g a)) l.
Proof. intros A B f g l. induction l as [|a l IH]; cbn [total flat_map]; [reflexivity|]. rewrite total_app, IH. reflexivity. Qed.
Lemma total_seq : forall f n, total f (seq 0 n) = csum f n.
Proof.
  intros f n. induction n as [|n IH]; [reflexivity|]. rewrite seq_S, total_app, IH. cbn [total csum Nat.add]. ring.
Qed.
Lemma total_csum : forall {A} (f : A -> nat -> C) l n, total (fun a => csum (f a) n) l = csum (fun i => total (fun a => f a i) l) n.
Proof.
  intros A f l n. induction l as [|a l IH]; cbn [total]; [symmetry; apply csum_0|]. rewrite IH, <- csum_plus. reflexivity.
Qed.
Lemma total_delta : forall f n k, total (fun i => if Nat.eqb i k then f i else RtoC 0) (seq 0 n) = if Nat.ltb k n then f k else RtoC 0.
Proof.
  intros f n k. rewrite total_seq. destruct (Nat.ltb_spec k n) as [H|H].
  - apply csum_delta. exact H.
  - rewrite (csum_ext _ (fun _ => RtoC 0)); [apply csum_0|]. intros i Hi. destruct (Nat.eqb_spec i k); [lia|reflexivity].
Qed.

(** ** Propagation through channel state information *)
Definition csi_taps (c : csi) : list tap := map (fun d => Tap d (fun r t i => h c r t i d)) (seq 0 (ntaps c)).
Lemma fold_adds : forall {V} (row from : V -> nat) (len : nat) (val : V -> nat -> C) (ok : V -> Prop) (step : result (nat -> nat -> C) -> V -> result (nat -> nat -> C)) l a0,
  (forall a v, ok v -> step (Ok a) v = Ok (add_at a (row v) (from v) len (val v))) -> Forall ok l ->
  exists y, fold_left step l (Ok a0) = Ok y /\
  forall r j, y r j = (a0 r j + total (fun v => if (Nat.eqb r (row v) && Nat.leb (from v) j && Nat.ltb j (from v + len))%bool then val v (j - from v)%nat else RtoC 0) l)%C.
Proof.
  intros V row from len val ok step l. induction l as [|v l IH]; intros a0 Hs Hf; cbn [fold_left total].
  - exists a0. split; [reflexivity|]. intros. ring.
  - inversion Hf as [|? ? Hv Hl]; subst. rewrite Hs by exact Hv. destruct (IH (add_at a0 (row v) (from v) len (val v)) Hs Hl) as [y [Ey Hy]].
    exists y. split; [exact Ey|]. intros r j. rewrite Hy. unfold add_at at 1. destruct (_ && _ && _)%bool; ring.
Qed.
Lemma csi_propagate_received : forall c s, format c = Impulse -> (0 < ntaps c)%nat -> streams s = ntx c -> (samples s <= nsamples c)%nat ->
  exists y, csi_propagate c s = Ok y /\ streams y = nrx c /\ samples y = (samples s + ntaps c - 1)%nat /\
  forall r j, (r < nrx c)%nat -> x y r j = received (csi_taps c) s r j.
Proof.
  intros c s Hf Ht Hs Hn. unfold csi_propagate, to_impulse. rewrite Hf.
  replace (Nat.eqb (samples s + ntaps c) 0) with false by (symmetry; apply Nat.eqb_neq; lia).
  match goal with |- context [fold_left ?st ?l ?a] => set (step := st); set (visits := l) end.
  destruct (fold_adds (fun v => snd v) (fun v => fst (fst v)) (samples s) (fun v i => (h c (snd v) (snd (fst v)) i (fst (fst v)) * x s (snd (fst v)) i)%C)
    (fun v => (snd (fst v) < ntx c)%nat) step visits (fun _ _ => RtoC 0)) as [y [Ey Hy]].
  - intros a [[d t] r] Hv. cbn [fst snd] in *. unfold step. cbn [bind].
    replace (Nat.leb (streams s) t) with false by (symmetry; apply Nat.leb_gt; lia).
    replace (Nat.leb (samples s) (nsamples c)) with true by (symmetry; apply Nat.leb_le; exact Hn). reflexivity.
  - apply Forall_forall. intros [[d t] r] Hin. unfold visits in Hin. apply in_flat_map in Hin as [d' [Hd Hin]]. apply in_flat_map in Hin as [t' [Ht' Hin]].
    apply in_map_iff in Hin as [r' [E _]]. apply in_seq in Ht'. cbn [fst snd]. assert (t = t') by congruence. lia.
  - rewrite Ey. cbn [bind]. eexists. split; [reflexivity|]. cbn [streams samples x]. split; [reflexivity|]. split; [reflexivity|].
    intros r j Hr. rewrite Hy. rewrite Cplus_0_l. unfold visits, received, csi_taps. rewrite total_flat_map, total_map. apply total_ext. intros d _. cbn [td weight].
    rewrite total_flat_map, total_seq, Hs. apply csum_ext. intros t _. rewrite total_map. cbn [fst snd].
    rewrite (total_ext _ (fun r' => if Nat.eqb r' r then if (Nat.leb d j && Nat.ltb j (d + samples s))%bool then (h c r t (j - d) d * x s t (j - d))%C else RtoC 0 else RtoC 0)).
    + rewrite (total_delta (fun _ => if (Nat.leb d j && Nat.ltb j (d + samples s))%bool then (h c r t (j - d) d * x s t (j - d))%C else RtoC 0)).
      replace (Nat.ltb r (nrx c)) with true by (symmetry; apply Nat.ltb_lt; exact Hr). reflexivity.
    + intros r' _. destruct (Nat.eqb_spec r' r) as [->|Hne].
      * rewrite Nat.eqb_refl. reflexivity.
      * destruct (Nat.eqb_spec r r'); [congruence|]. reflexivity.
Qed.

(** ** The channels as superpositions *)
Definition ideal_taps (gain : R) (nr nt : nat) : list tap := [Tap 0 (fun r t _ => (ideal_response nr nt r t * RtoC (sqrt gain))%C)].
Lemma ideal_received : forall gain nr nt s r j, streams s = nt -> (r < nr)%nat -> (j < samples s)%nat ->
  x (fst (ideal_propagate gain nr nt s)) r j = received (ideal_taps gain nr nt) s r j.
Proof.
  intros gain nr nt s r j Hs Hr Hj. unfold received, ideal_taps. cbn [total td weight]. rewrite Cplus_0_r, Nat.sub_0_r.
  replace (Nat.leb 0 j && Nat.ltb j (0 + samples s))%bool with true by (symmetry; apply andb_true_intro; split; [reflexivity|apply Nat.ltb_lt; exact Hj]).
  unfold ideal_propagate, ideal_response. rewrite Hs. destruct (Nat.eqb_spec nt 1) as [E1|N1].
  - rewrite orb_true_r, E1. cbn [fst x csum]. ring.
  - destruct (Nat.eqb_spec nr 1) as [E2|N2].
    + cbn [fst x orb]. rewrite ?Hs, <- csum_scal_r. apply csum_ext. intros t _. ring.
    + cbn [orb].
      assert (K : csum (fun t => (if Nat.eqb r t then RtoC 1 else RtoC 0) * RtoC (sqrt gain) * x s t j)%C nt = ((if Nat.ltb r nt then x s r j else RtoC 0) * RtoC (sqrt gain))%C).
      { rewrite (csum_ext _ (fun t => if Nat.eqb t r then RtoC (sqrt gain) * x s t j else RtoC 0)%C).
        - rewrite <- total_seq, (total_delta (fun t => RtoC (sqrt gain) * x s t j)%C). destruct (Nat.ltb r nt); ring.
        - intros t _. rewrite Nat.eqb_sym. destruct (Nat.eqb t r); ring. }
      rewrite K. destruct (Nat.eqb_spec nr 0) as [E3|N3]; [lia|]. destruct (Nat.ltb_spec nt nr) as [Hl|Hl]; cbn [fst x]; [reflexivity|].
      replace (Nat.ltb r nt) with true by (symmetry; apply Nat.ltb_lt; lia). reflexivity.
Qed.
Lemma ideal_dimensions : forall gain nr nt s, streams (fst (ideal_propagate gain nr nt s)) = nr /\ samples (fst (ideal_propagate gain nr nt s)) = samples s /\
  offset (fst (ideal_propagate gain nr nt s)) = offset s.
Proof. intros. unfold ideal_propagate. destruct (Nat.eqb nt 1), (Nat.eqb nr 1), (Nat.eqb nr 0), (Nat.ltb nt nr); repeat split. Qed.

Definition delay_taps (c : delay_sample) : list tap := [Tap (in_samples (d_delay c) (d_bandwidth c)) (fun r t _ => (RtoC (d_gain c) * d_response c r t)%C)].
Lemma delay_received : forall c s r j, (j < samples (delay_propagate c s))%nat ->
  x (delay_propagate c s) r j = received (delay_taps c) s r j.
Proof.
  intros c s r j Hj. unfold received, delay_taps, delay_propagate in *. cbn [total td weight x samples] in *. rewrite Cplus_0_r. set (d := in_samples _ _) in *.
  destruct (Nat.ltb_spec j d) as [H|H].
  - rewrite (csum_ext _ (fun _ => RtoC 0)); [symmetry; apply csum_0|]. intros t _. replace (Nat.leb d j) with false by (symmetry; apply Nat.leb_gt; lia). reflexivity.
  - replace (Nat.leb d j && Nat.ltb j (d + samples s))%bool with true by (symmetry; apply andb_true_intro; split; [apply Nat.leb_le|apply Nat.ltb_lt]; lia). reflexivity.
Qed.

Definition fading_taps (c : fading_sample) : list tap := map (fun p => Tap (path_delay c p) (fun r t i => (f_response c r t * impulse c p i)%C)) (paths c).
Lemma fold_paths : forall c s (row : nat -> nat) l a0 t j,
  fold_left (fun acc p => fun t j => if (Nat.leb (path_delay c p) j && Nat.ltb j (path_delay c p + samples s))%bool
        then (acc t j + x s (row t) (j - path_delay c p)%nat * impulse c p (j - path_delay c p)%nat)%C else acc t j) l a0 t j =
  (a0 t j + total (fun p => if (Nat.leb (path_delay c p) j && Nat.ltb j (path_delay c p + samples s))%bool
        then (x s (row t) (j - path_delay c p)%nat * impulse c p (j - path_delay c p)%nat)%C else RtoC 0) l)%C.
Proof.
  intros c s row l. induction l as [|p l IH]; intros a0 t j; cbn [fold_left total]; [ring|]. rewrite IH. destruct (_ && _)%bool; ring.
Qed.
Lemma fading_received : forall c s, 0 <= f_bandwidth c -> streams s = Nat.min (f_tx c) (a_tx c) ->
  exists y, fading_propagate c s = Ok y /\ streams y = Nat.min (f_rx c) (a_rx c) /\
  samples y = (samples s + in_samples (max_delay c) (f_bandwidth c))%nat /\ offset y = offset s /\
  forall r j, (r < streams y)%nat -> (j < samples y)%nat -> x y r j = received (fading_taps c) s r j.
Proof.
  intros c s Hb Hs. unfold fading_propagate.
  destruct (Nat.ltb 0 (samples s + in_samples (max_delay c) (f_bandwidth c)) && Nat.ltb 0 (Nat.min (f_rx c) (a_rx c)))%bool eqn:E.
  - rewrite Hs, Nat.eqb_refl. cbn [orb]. eexists. split; [reflexivity|]. cbn [streams samples offset x]. repeat (split; [reflexivity|]).
    intros r j Hr Hj. unfold received, fading_taps. rewrite total_map. cbn [td weight]. rewrite Hs, total_csum. apply csum_ext. intros t Ht.
    rewrite fold_paths, Cplus_0_l, <- total_scal. apply total_ext. intros p _.
    assert (Et : (if Nat.eqb (Nat.min (f_tx c) (a_tx c)) 1 then 0%nat else t) = t) by (destruct (Nat.eqb_spec (Nat.min (f_tx c) (a_tx c)) 1); lia).
    rewrite Et. clear E. destruct (_ && _)%bool; ring.
  - eexists. split; [reflexivity|]. cbn [streams samples offset x]. repeat (split; [reflexivity|]). intros r j Hr Hj.
    apply andb_false_iff in E as [E|E]; apply Nat.ltb_ge in E; lia.
Qed.
(** The taps of the state of a fading channel *)
Definition siso (c : fading_sample) (i k : nat) : C := total (fun p => if Nat.eqb k (path_delay c p) then impulse c p i else RtoC 0) (paths c).
Lemma fading_state_ok : forall c n m, let taps := Nat.min (1 + in_samples (max_delay c) (f_bandwidth c)) m in
  Forall (fun p => path_delay c p <> taps) (paths c) ->
  exists e, fading_state c n m = Ok (impulse_csi (a_rx c) (a_tx c) n taps e) /\
  forall r t i k, (k < taps)%nat -> e r t i k = (f_response c r t * siso c i k)%C.
Proof.
  intros c n m taps Hp. unfold fading_state. fold taps.
  match goal with |- context [fold_left ?st ?l ?a] => set (step := st) end.
  assert (K : forall l a, Forall (fun p => path_delay c p <> taps) l -> exists y, fold_left step l (Ok a) = Ok y /\
    forall i k, (k < taps)%nat -> y i k = (a i k + total (fun p => if Nat.eqb k (path_delay c p) then impulse c p i else RtoC 0) l)%C).
  { induction l as [|p l IH]; intros a Hl; cbn [fold_left total].
    - exists a. split; [reflexivity|]. intros. ring.
    - inversion Hl as [|? ? H1 H2]; subst. unfold step at 2. cbn [bind].
      destruct (Nat.ltb_spec taps (path_delay c p)) as [Hlt|Hge].
      + destruct (IH a H2) as [y [Ey Hy]]. exists y. split; [exact Ey|]. intros i k Hk. rewrite Hy by exact Hk. destruct (Nat.eqb_spec k (path_delay c p)); [lia|]. ring.
      + destruct (Nat.eqb_spec (path_delay c p) taps) as [E|N]; [congruence|].
        destruct (IH (fun i k => if Nat.eqb k (path_delay c p) then (a i k + impulse c p i)%C else a i k) H2) as [y [Ey Hy]].
        exists y. split; [exact Ey|]. intros i k Hk. rewrite Hy by exact Hk. destruct (Nat.eqb k (path_delay c p)); ring. }
  destruct (K (paths c) (fun _ _ => RtoC 0) Hp) as [y [Ey Hy]]. rewrite Ey. cbn [bind]. eexists. split; [reflexivity|].
  intros r t i k Hk. cbv beta. rewrite Hy by exact Hk. rewrite Cplus_0_l. reflexivity.
Qed.
Lemma fading_state_fails : forall c n m, let taps := Nat.min (1 + in_samples (max_delay c) (f_bandwidth c)) m in
  Exists (fun p => path_delay c p = taps) (paths c) -> fading_state c n m = Raise IndexError.
Proof.
  intros c n m taps Hp. unfold fading_state. fold taps.
  match goal with |- context [fold_left ?st ?l ?a] => set (step := st) end.
  assert (R : forall l, fold_left step l (Raise IndexError) = Raise IndexError) by (induction l as [|p l IH]; [reflexivity|exact IH]).
  assert (K : forall l a, Exists (fun p => path_delay c p = taps) l -> fold_left step l (Ok a) = Raise IndexError).
  { induction l as [|p l IH]; intros a Hl; inversion Hl as [? ? H|? ? H]; subst; cbn [fold_left]; unfold step at 2; cbn [bind].
    - rewrite H, Nat.ltb_irrefl, Nat.eqb_refl. apply R.
    - destruct (Nat.ltb taps (path_delay c p)); [apply IH, H|]. destruct (Nat.eqb (path_delay c p) taps); [apply R|apply IH, H]. }
  rewrite K by exact Hp. reflexivity.
Qed.
(** Taps beyond the state's length drop out *)
Lemma received_siso : forall c s taps r j,
  total (fun d => csum (fun t => if (Nat.leb d j && Nat.ltb j (d + samples s))%bool then (f_response c r t * siso c (j - d) d * x s t (j - d))%C else RtoC 0) (streams s)) (seq 0 taps) =
  received (filter (fun p => Nat.ltb (td p) taps) (fading_taps c)) s r j.
Proof.
  intros c s taps r j. unfold fading_taps, siso. induction (paths c) as [|p l IH]; cbn [map filter].
  - cbn [total]. rewrite (total_ext _ (fun _ => RtoC 0)); [unfold received; cbn [total]; apply total_0|]. intros d _.
    rewrite (csum_ext _ (fun _ => RtoC 0)); [apply csum_0|]. intros t _. destruct (_ && _)%bool; ring.
  - cbn [total].
    transitivity (total (fun d => csum (fun t => if Nat.eqb d (path_delay c p) then (if (Nat.leb d j && Nat.ltb j (d + samples s))%bool then f_response c r t * impulse c p (j - d) * x s t (j - d) else RtoC 0) else RtoC 0)%C (streams s)) (seq 0 taps) +
      total (fun d => csum (fun t => if (Nat.leb d j && Nat.ltb j (d + samples s))%bool then (f_response c r t * total (fun p => if Nat.eqb d (path_delay c p) then impulse c p (j - d) else RtoC 0) l * x s t (j - d))%C else RtoC 0) (streams s)) (seq 0 taps))%C.
    + rewrite <- total_plus. apply total_ext. intros d _. rewrite <- csum_plus. apply csum_ext. intros t _. destruct (_ && _)%bool, (Nat.eqb d (path_delay c p)); ring.
    + rewrite IH.
      rewrite (total_ext _ (fun d => if Nat.eqb d (path_delay c p) then csum (fun t => if (Nat.leb d j && Nat.ltb j (d + samples s))%bool then f_response c r t * impulse c p (j - d) * x s t (j - d) else RtoC 0)%C (streams s) else RtoC 0)).
      2:{ intros d _. destruct (Nat.eqb d (path_delay c p)); [reflexivity|apply csum_0]. }
      rewrite (total_delta (fun d => csum (fun t => if (Nat.leb d j && Nat.ltb j (d + samples s))%bool then f_response c r t * impulse c p (j - d) * x s t (j - d) else RtoC 0)%C (streams s))).
      cbn [td]. destruct (Nat.ltb (path_delay c p) taps).
      * unfold received at 2. cbn [total td weight]. reflexivity.
      * ring.
Qed.

(** ** Linearity and causality of superpositions *)
Lemma received_plus : forall taps a b r j, streams a = streams b -> samples a = samples b ->
  received taps (add_blk a b) r j = (received taps a r j + received taps b r j)%C.
Proof.
  intros taps a b r j Hs Hn. unfold received. rewrite <- total_plus. apply total_ext. intros p _. cbn [streams samples add_blk x]. rewrite <- Hs, <- Hn, <- csum_plus.
  apply csum_ext. intros t _. destruct (_ && _)%bool; ring.
Qed.
Lemma received_scal : forall taps k a r j, received taps (scale_blk k a) r j = (k * received taps a r j)%C.
Proof.
  intros taps k a r j. unfold received. rewrite <- total_scal. apply total_ext. intros p _. cbn [streams samples scale_blk x]. rewrite <- csum_scal.
  apply csum_ext. intros t _. destruct (_ && _)%bool; ring.
Qed.
Lemma received_causal : forall taps a b n r j, agree_before n a b -> (j < n)%nat -> received taps a r j = received taps b r j.
Proof.
  intros taps a b n r j [Hs [Hn H]] Hj. unfold received. apply total_ext. intros p _. rewrite <- Hs, <- Hn. apply csum_ext. intros t Ht.
  destruct (Nat.leb_spec (td p) j) as [Hd|Hd]; [|reflexivity]. destruct (Nat.ltb_spec j (td p + samples a)) as [He|He]; [|reflexivity]. cbn [andb].
  rewrite H by (rewrite ?Hs; lia). reflexivity.
Qed.
Lemma received_ext : forall taps taps' s r j, (forall t i, (t < streams s)%nat -> (i < samples s)%nat -> map (fun p => (td p, weight p r t i)) taps = map (fun p => (td p, weight p r t i)) taps') ->
  map td taps = map td taps' -> received taps s r j = received taps' s r j.
Proof.
  intros taps. induction taps as [|p l IH]; intros [|q l'] s r j H Ht; try discriminate Ht; [reflexivity|].
  unfold received. cbn [total]. injection Ht as Etd Ht. f_equal.
  - rewrite <- Etd. apply csum_ext. intros t Hlt. destruct (Nat.leb_spec (td p) j) as [Hd|Hd]; [|reflexivity]. destruct (Nat.ltb_spec j (td p + samples s)) as [He|He]; [|reflexivity]. cbn [andb].
    pose proof (H t (j - td p)%nat Hlt ltac:(lia)) as E. cbn [map] in E. injection E as _ E _. rewrite E. reflexivity.
  - apply IH; [|exact Ht]. intros t i H1 H2. pose proof (H t i H1 H2) as E. cbn [map] in E. injection E as _ _ E. exact E.
Qed.

(** ** Blocks and their superposition in time *)
Definition covers (b : blk) (j : nat) : bool := (Nat.leb (offset b) j && Nat.ltb j (offset b + samples b))%bool.
Definition shifted (b : blk) (r j : nat) : C := if covers b j then x b r (j - offset b) else RtoC 0.
Lemma covers_true : forall b j, covers b j = true <-> (offset b <= j < offset b + samples b)%nat.
Proof. intros. unfold covers. rewrite andb_true_iff, Nat.leb_le, Nat.ltb_lt. tauto. Qed.
Lemma covers_false : forall b j, covers b j = false <-> ~ (offset b <= j < offset b + samples b)%nat.
Proof. intros. rewrite <- covers_true. destruct (covers b j); split; congruence. Qed.
Lemma spaced_later : forall g l b, spaced g (b :: l) -> forall c, In c l -> (offset b + samples b + g <= offset c)%nat.
Proof.
  intros g l. induction l as [|d l IH]; intros b H c Hc; [destruct Hc|]. destruct Hc as [Hc|Hc]; cbn [spaced] in H; destruct H as [H1 H2].
  - subst d. exact H1.
  - specialize (IH d H2 c Hc). lia.
Qed.
Lemma spaced_tail : forall g b l, spaced g (b :: l) -> spaced g l.
Proof. intros g b [|c l] H; [exact I|]. apply H. Qed.
Lemma spaced_weaken : forall g g' l, (g' <= g)%nat -> spaced g l -> spaced g' l.
Proof. intros g g' l Hg. induction l as [|b [|c l] IH]; intros H; try exact I. cbn [spaced] in *. destruct H as [H1 H2]. split; [lia|]. apply IH, H2. Qed.
Lemma wave_total : forall l r j, spaced 0 l -> wave l r j = total (fun b => shifted b r j) l.
Proof.
  induction l as [|b l IH]; intros r j H; [reflexivity|]. cbn [wave total].
  fold (covers b j). change (fun c => (Nat.leb (offset c) j && Nat.ltb j (offset c + samples c))%bool) with (fun c => covers c j).
  destruct (existsb (fun c => covers c j) l) eqn:E.
  - apply existsb_exists in E as [c [Hc Ec]]. apply covers_true in Ec. pose proof (spaced_later 0 l b H c Hc). unfold shifted at 1.
    replace (covers b j) with false by (symmetry; apply covers_false; lia). rewrite IH by (eapply spaced_tail, H). ring.
  - rewrite (total_ext _ (fun _ => RtoC 0) l).
    + rewrite total_0. unfold shifted. destruct (covers b j); ring.
    + intros c Hc. unfold shifted. destruct (covers c j) eqn:Ec; [|reflexivity]. exfalso. rewrite <- not_true_iff_false in E. apply E, existsb_exists. exists c. split; assumption.
Qed.
Lemma last_end_cons : forall b c l, last_end (b :: c :: l) = last_end (c :: l).
Proof. intros b c l. unfold last_end. cbn [rev]. destruct (rev l ++ [c]) eqn:E; [destruct (rev l); discriminate|reflexivity]. Qed.
Lemma last_end_ge : forall l b, spaced 0 l -> In b l -> (offset b + samples b <= last_end l)%nat.
Proof.
  induction l as [|a l IH]; intros b H Hb; [destruct Hb|]. destruct Hb as [Hb|Hb]; destruct l as [|c l].
  - subst. cbn. lia.
  - subst a. rewrite last_end_cons. cbn [spaced] in H. destruct H as [H1 H2]. specialize (IH c H2 (or_introl eq_refl)). lia.
  - contradiction.
  - rewrite last_end_cons. apply IH; [apply H|exact Hb].
Qed.
Lemma to_dense_wave : forall l, spaced 0 l -> exists y, to_dense l = Ok y /\ samples y = last_end l /\ offset y = 0%nat /\
  streams y = match l with [] => 0%nat | b :: _ => streams b end /\ forall r j, x y r j = wave l r j.
Proof.
  intros l Hl. unfold to_dense. match goal with |- context [fold_left ?st ?l ?a] => set (step := st) end.
  assert (K : forall m a, (forall b, In b m -> (offset b + samples b <= last_end l)%nat) -> exists y, fold_left step m (Ok a) = Ok y /\
    forall r j, y r j = if existsb (fun c => covers c j) m then wave m r j else a r j).
  { induction m as [|b m IH]; intros a Hm; cbn [fold_left].
    - exists a. split; reflexivity.
    - unfold step at 2. cbn [bind]. replace (Nat.leb (offset b + samples b) (last_end l)) with true by (symmetry; apply Nat.leb_le, Hm; left; reflexivity).
      destruct (IH (fun r j => if covers b j then x b r (j - offset b)%nat else a r j)) as [y [Ey Hy]]; [intros c Hc; apply Hm; right; exact Hc|].
      exists y. split; [exact Ey|]. intros r j. rewrite Hy. cbn [existsb wave].
      change (fun c => (Nat.leb (offset c) j && Nat.ltb j (offset c + samples c))%bool) with (fun c => covers c j). fold (covers b j).
      destruct (existsb (fun c => covers c j) m); [rewrite orb_true_r; reflexivity|]. destruct (covers b j); reflexivity. }
  destruct (K l (fun _ _ => RtoC 0)) as [y [Ey Hy]]; [intros b Hb; apply last_end_ge; assumption|]. rewrite Ey. cbn [bind].
  eexists. split; [reflexivity|]. repeat (split; [reflexivity|]). intros r j. cbn [x]. rewrite Hy.
  destruct (existsb (fun c => covers c j) l) eqn:E; [reflexivity|]. rewrite wave_total by exact Hl. rewrite (total_ext _ (fun _ => RtoC 0)); [symmetry; apply total_0|].
  intros b Hb. unfold shifted. destruct (covers b j) eqn:Ec; [|reflexivity]. exfalso. rewrite <- not_true_iff_false in E. apply E, existsb_exists. exists b. split; assumption.
Qed.
(** Superpositions with weights that do not change over time *)
Definition steady (taps : list tap) : Prop := Forall (fun p => forall r t i k, weight p r t i = weight p r t k) taps.
Definition conv (taps : list tap) (st : nat) (g : nat -> nat -> C) (r j : nat) : C :=
  total (fun p => csum (fun t => if Nat.leb (td p) j then (weight p r t 0%nat * g t (j - td p)%nat)%C else RtoC 0) st) taps.
Lemma conv_total : forall {A} taps st (g : A -> nat -> nat -> C) l r j,
  conv taps st (fun t j => total (fun b => g b t j) l) r j = total (fun b => conv taps st (g b) r j) l.
Proof.
  intros A taps st g l r j. unfold conv. induction l as [|b l IH]; cbn [total].
  - rewrite (total_ext _ (fun _ => RtoC 0)); [apply total_0|]. intros p _. rewrite (csum_ext _ (fun _ => RtoC 0)); [apply csum_0|]. intros t _. destruct (Nat.leb (td p) j); ring.
  - rewrite <- IH, <- total_plus. apply total_ext. intros p _. rewrite <- csum_plus. apply csum_ext. intros t _. destruct (Nat.leb (td p) j); ring.
Qed.
Lemma conv_shifted : forall taps b r j, steady taps -> conv taps (streams b) (shifted b) r j = if Nat.leb (offset b) j then received taps b r (j - offset b) else RtoC 0.
Proof.
  intros taps b r j Hs. unfold conv, received. destruct (Nat.leb_spec (offset b) j) as [Ho|Ho].
  - apply total_ext. intros p Hp. apply csum_ext. intros t Ht. unfold shifted, covers.
    destruct (Nat.leb_spec (td p) j) as [H1|H1].
    + destruct (Nat.leb_spec (offset b) (j - td p)) as [H2|H2]; destruct (Nat.ltb_spec (j - td p) (offset b + samples b)) as [H3|H3];
        destruct (Nat.leb_spec (td p) (j - offset b)) as [H4|H4]; destruct (Nat.ltb_spec (j - offset b) (td p + samples b)) as [H5|H5]; cbn [andb]; try lia; try ring.
      unfold steady in Hs. rewrite Forall_forall in Hs. rewrite (Hs p Hp r t 0%nat (j - offset b - td p)%nat). do 2 f_equal. lia.
    + destruct (Nat.leb_spec (td p) (j - offset b)) as [H4|H4]; [lia|]. reflexivity.
  - rewrite (total_ext _ (fun _ => RtoC 0)); [apply total_0|]. intros p _. rewrite (csum_ext _ (fun _ => RtoC 0)); [apply csum_0|]. intros t _. unfold shifted, covers.
    destruct (Nat.leb (td p) j); [|reflexivity]. replace (Nat.leb (offset b) (j - td p)) with false by (symmetry; apply Nat.leb_gt; lia). cbn [andb]. ring.
Qed.
Lemma received_beyond : forall taps b r j D, (forall p, In p taps -> (td p <= D)%nat) -> (samples b + D <= j)%nat -> received taps b r j = RtoC 0.
Proof.
  intros taps b r j D HD Hj. unfold received. rewrite (total_ext _ (fun _ => RtoC 0)); [apply total_0|]. intros p Hp. rewrite (csum_ext _ (fun _ => RtoC 0)); [apply csum_0|]. intros t _.
  specialize (HD p Hp). replace (Nat.ltb j (td p + samples b)) with false by (symmetry; apply Nat.ltb_ge; lia). rewrite andb_false_r. reflexivity.
Qed.
Lemma received_dense : forall taps l st y r j, steady taps -> spaced 0 l -> Forall (fun b => streams b = st) l -> streams y = st -> samples y = last_end l ->
  (forall r j, x y r j = wave l r j) ->
  received taps y r j = total (fun b => if Nat.leb (offset b) j then received taps b r (j - offset b) else RtoC 0) l.
Proof.
  intros taps l st y r j Hs Hl Hst Hy Hn Hw. transitivity (conv taps st (wave l) r j).
  - unfold received, conv. rewrite Hy, Hn. apply total_ext. intros p Hp. apply csum_ext. intros t _. rewrite Hw.
    destruct (Nat.leb_spec (td p) j) as [H1|H1]; [|reflexivity]. cbn [andb].
    unfold steady in Hs. rewrite Forall_forall in Hs. rewrite (Hs p Hp r t (j - td p)%nat 0%nat).
    destruct (Nat.ltb_spec j (td p + last_end l)) as [H2|H2]; [reflexivity|]. rewrite wave_total by exact Hl. rewrite (total_ext _ (fun _ => RtoC 0)); [rewrite total_0; ring|].
    intros b Hb. unfold shifted. pose proof (last_end_ge l b Hl Hb). replace (covers b (j - td p)) with false by (symmetry; apply covers_false; lia). reflexivity.
  - transitivity (conv taps st (fun t j => total (fun b => shifted b t j) l) r j).
    + unfold conv. apply total_ext. intros p _. apply csum_ext. intros t _. rewrite wave_total by exact Hl. reflexivity.
    + rewrite conv_total. apply total_ext. intros b Hb. rewrite Forall_forall in Hst. rewrite <- (Hst b Hb). apply conv_shifted. exact Hs.
Qed.
(** Block by block propagation equals propagation of the whole *)
Lemma blockwise : forall taps D prop l st, steady taps -> (forall p, In p taps -> (td p <= D)%nat) -> spaced D l -> Forall (fun b => streams b = st) l -> l <> [] ->
  (forall b, streams b = st -> offset (prop b) = offset b /\ samples (prop b) = (samples b + D)%nat /\ forall r j, (r < streams (prop b))%nat -> (j < samples (prop b))%nat -> x (prop b) r j = received taps b r j) ->
  (forall b c, streams b = st -> streams c = st -> streams (prop b) = streams (prop c)) ->
  exists y z, to_dense l = Ok y /\ streams y = st /\ to_dense (map prop l) = Ok z /\ same_samples z (prop y).
Proof.
  intros taps D prop l st Hs HD Hl Hst Hne Hp Hc. pose proof (spaced_weaken D 0 l ltac:(lia) Hl) as Hl0.
  destruct (to_dense_wave l Hl0) as [y [Ey [Hny [_ [Hsy Hxy]]]]]. exists y.
  assert (Hsp : spaced 0 (map prop l)).
  { clear - Hl Hp Hst. induction l as [|b [|c l] IH]; try exact I. cbn [map spaced] in *. destruct Hl as [H1 H2]. inversion Hst as [|? ? Hb Hst']; subst.
    split; [|apply IH; assumption]. inversion Hst' as [|? ? Hc' _]; subst. destruct (Hp b eq_refl) as [O1 [N1 _]]. destruct (Hp c Hc') as [O2 _]. lia. }
  destruct (to_dense_wave (map prop l) Hsp) as [z [Ez [Hnz [_ [Hsz Hxz]]]]]. exists z. split; [exact Ey|].
  assert (Hst' : streams y = st) by (rewrite Hsy; destruct l as [|b l]; [congruence|inversion Hst; assumption]). split; [exact Hst'|]. split; [exact Ez|].
  destruct (Hp y Hst') as [Oy [Ny Xy]].
  assert (Hend : last_end (map prop l) = (last_end l + D)%nat).
  { clear - Hp Hst Hne. induction l as [|b [|c l] IH]; [congruence| |].
    - inversion Hst as [|? ? Hb _]; subst. destruct (Hp b eq_refl) as [O1 [N1 _]]. cbn. lia.
    - change (map prop (b :: c :: l)) with (prop b :: prop c :: map prop l). rewrite !last_end_cons. apply IH; [inversion Hst; assumption|discriminate]. }
  split; [|split].
  - rewrite Hsz. destruct l as [|b l]; [congruence|]. cbn [map]. inversion Hst as [|? ? Hb _]. apply Hc; assumption.
  - rewrite Hnz, Ny, Hny. exact Hend.
  - intros r j Hr Hj. rewrite Hxz, wave_total by exact Hsp. rewrite total_map.
    assert (Hr' : (r < streams (prop y))%nat).
    { rewrite Hsz in Hr. destruct l as [|b l]; [congruence|]. cbn [map] in Hr. inversion Hst as [|? ? Hb _]. rewrite (Hc y b Hst' Hb). exact Hr. }
    rewrite Xy by (try exact Hr'; rewrite Ny, Hny; rewrite Hnz, Hend in Hj; exact Hj).
    rewrite (received_dense taps l st y r j Hs Hl0 Hst Hst' Hny Hxy). apply total_ext. intros b Hb. rewrite Forall_forall in Hst. pose proof (Hst b Hb) as Sb.
    destruct (Hp b Sb) as [Ob [Nb Xb]]. unfold shifted, covers. rewrite Ob, Nb. destruct (Nat.leb_spec (offset b) j) as [H1|H1]; [|reflexivity]. cbn [andb].
    destruct (Nat.ltb_spec j (offset b + (samples b + D))) as [H2|H2].
    + apply Xb; [rewrite (Hc b y Sb Hst'); exact Hr'|rewrite Nb; lia].
    + symmetry. apply (received_beyond taps b r (j - offset b) D HD). lia.
Qed.
Lemma filter_all : forall {A} (f : A -> bool) l, (forall a, In a l -> f a = true) -> filter f l = l.
Proof. intros A f l. induction l as [|a l IH]; intros H; [reflexivity|]. cbn [filter]. rewrite (H a (or_introl eq_refl)), IH by (intros b Hb; apply H; right; exact Hb). reflexivity. Qed.

(** ** Sums over flattened arrays *)
Lemma csum_prod : forall F a b, csum F (a * b) = csum (fun i => csum (fun j => F (i * b + j)%nat) b) a.
Proof. intros F a b. induction a as [|a IH]; [reflexivity|]. cbn [csum]. rewrite <- IH. rewrite <- csum_app. f_equal. lia. Qed.
Lemma divmod : forall a b c, (c < b)%nat -> ((a * b + c) / b = a /\ (a * b + c) mod b = c)%nat.
Proof.
  intros a b c H. split; [symmetry; apply (Nat.div_unique _ b a c); lia|symmetry; apply (Nat.mod_unique _ b a c); lia].
Qed.
Lemma csum_pick : forall f n k, csum (fun i => if Nat.eqb i k then f i else RtoC 0) n = if Nat.ltb k n then f k else RtoC 0.
Proof. intros. rewrite <- total_seq. apply total_delta. Qed.
Lemma linear_impulse : forall c r o i, format c = Impulse -> ntx c = 1%nat -> (r < nrx c)%nat -> (i < nsamples c)%nat ->
  linear c r 0 o i = if (Nat.leb i o && Nat.ltb o (i + ntaps c))%bool then h c r 0 i (o - i) else RtoC 0.
Proof.
  intros c r o i Hf H1 Hr Hi. unfold linear. rewrite H1.
  set (R := nrx c) in *. set (S := nsamples c) in *. set (T := ntaps c) in *.
  replace (R * 1 * S * T)%nat with (R * (S * T))%nat by lia. rewrite csum_prod.
  rewrite (csum_ext _ (fun r' => if Nat.eqb r' r then if (Nat.leb i o && Nat.ltb o (i + T))%bool then h c r' 0 i (o - i) else RtoC 0 else RtoC 0)).
  - rewrite (csum_pick (fun r' => if (Nat.leb i o && Nat.ltb o (i + T))%bool then h c r' 0 i (o - i) else RtoC 0)). replace (Nat.ltb r R) with true by (symmetry; apply Nat.ltb_lt; exact Hr). reflexivity.
  - intros r' Hr'. rewrite csum_prod.
    rewrite (csum_ext _ (fun i' => if Nat.eqb i' i then if Nat.eqb r' r then if (Nat.leb i' o && Nat.ltb o (i' + T))%bool then h c r' 0 i' (o - i') else RtoC 0 else RtoC 0 else RtoC 0)).
    + rewrite (csum_pick (fun i' => if Nat.eqb r' r then if (Nat.leb i' o && Nat.ltb o (i' + T))%bool then h c r' 0 i' (o - i') else RtoC 0 else RtoC 0)).
      replace (Nat.ltb i S) with true by (symmetry; apply Nat.ltb_lt; exact Hi). reflexivity.
    + intros i' Hi'.
      assert (E : forall k, (k < T)%nat -> (if same_coordinates (coordinates c (r' * (S * T) + (i' * T + k))) (r, 0, o, i)%nat then flat c (r' * (S * T) + (i' * T + k)) else RtoC 0) =
        (if Nat.eqb k (o - i') then if (Nat.eqb r' r && Nat.eqb i' i && Nat.leb i' o)%bool then h c r' 0 i' k else RtoC 0 else RtoC 0)).
      { intros k Hk. assert (Hp : (i' * T + k < S * T)%nat) by nia. assert (Hpos : (0 < S * T)%nat) by lia.
        destruct (divmod r' (S * T) (i' * T + k) Hp) as [D1 M1]. destruct (divmod i' T k Hk) as [D2 M2].
        assert (HK : (r' * (S * T) + (i' * T + k) < R * (S * T))%nat) by nia.
        unfold coordinates, same_coordinates, flat. rewrite Hf, H1. fold R S T.
        replace (1 * (T * S))%nat with (S * T)%nat by lia. replace (T * S * 1)%nat with (S * T)%nat by lia. replace (T * S)%nat with (S * T)%nat by lia. replace (R * T * S)%nat with (R * (S * T))%nat by lia.
        rewrite D1, M1, D2, M2. rewrite (Nat.div_small (r' * (S * T) + (i' * T + k)) (R * (S * T))) by exact HK. rewrite (Nat.mod_small (r' * (S * T) + (i' * T + k)) (R * (S * T))) by exact HK. rewrite Nat.mul_1_r. cbn [Nat.add]. rewrite (Nat.div_small _ (R * (S * T))) by exact HK.
        replace (r' mod 1)%nat with 0%nat by (symmetry; apply Nat.mod_1_r).
        assert (M3 : ((r' * (S * T) + (i' * T + k)) mod T = k)%nat) by (symmetry; apply (Nat.mod_unique _ T (r' * S + i') k); lia).
        assert (D3 : ((r' * (S * T) + (i' * T + k)) / T = r' * S + i')%nat) by (symmetry; apply (Nat.div_unique _ T (r' * S + i') k); lia).
        rewrite M3, D3. destruct (divmod r' S i' Hi') as [_ M4]. rewrite M4. rewrite Nat.eqb_refl, andb_true_r.
        destruct (Nat.eqb_spec r' r), (Nat.eqb_spec i' i); cbn [andb]; rewrite ?andb_false_r; try (destruct (Nat.eqb k (o - i')); reflexivity).
        destruct (Nat.eqb_spec (k + i') o), (Nat.eqb_spec k (o - i')), (Nat.leb_spec i' o); cbn [andb]; try reflexivity; lia. }
      rewrite (csum_ext _ _ T E). rewrite (csum_pick (fun k => if (Nat.eqb r' r && Nat.eqb i' i && Nat.leb i' o)%bool then h c r' 0 i' k else RtoC 0)).
      destruct (Nat.eqb r' r), (Nat.eqb i' i); cbn [andb]; try (destruct (Nat.ltb (o - i') T); reflexivity).
      destruct (Nat.leb_spec i' o); cbn [andb]; [|destruct (Nat.ltb (o - i') T); reflexivity].
      destruct (Nat.ltb_spec (o - i') T), (Nat.ltb_spec o (i' + T)); try reflexivity; lia.
Qed.
Lemma linear_frequency : forall c r t o i, format c = Frequency -> (r < nrx c)%nat -> (t < ntx c)%nat -> (o < nsamples c * ntaps c)%nat ->
  linear c r t o i = if Nat.eqb o i then h c r t (o / ntaps c) (o mod ntaps c) else RtoC 0.
Proof.
  intros c r t o i Hf Hr Ht Ho. unfold linear.
  set (R := nrx c) in *. set (X := ntx c) in *. set (S := nsamples c) in *. set (T := ntaps c) in *.
  replace (R * X * S * T)%nat with (R * (X * (S * T)))%nat by lia. rewrite csum_prod.
  set (v := if Nat.eqb o i then h c r t (o / T) (o mod T) else RtoC 0).
  rewrite (csum_ext _ (fun r' => if Nat.eqb r' r then v else RtoC 0)).
  - rewrite (csum_pick (fun _ => v)). replace (Nat.ltb r R) with true by (symmetry; apply Nat.ltb_lt; exact Hr). reflexivity.
  - intros r' Hr'. rewrite csum_prod. rewrite (csum_ext _ (fun t' => if Nat.eqb t' t then if Nat.eqb r' r then v else RtoC 0 else RtoC 0)).
    + rewrite (csum_pick (fun _ => if Nat.eqb r' r then v else RtoC 0)). replace (Nat.ltb t X) with true by (symmetry; apply Nat.ltb_lt; exact Ht). reflexivity.
    + intros t' Ht'. rewrite (csum_ext _ (fun q => if Nat.eqb q o then if (Nat.eqb r' r && Nat.eqb t' t)%bool then v else RtoC 0 else RtoC 0)).
      * rewrite (csum_pick (fun _ => if (Nat.eqb r' r && Nat.eqb t' t)%bool then v else RtoC 0)). replace (Nat.ltb o (S * T)) with true by (symmetry; apply Nat.ltb_lt; exact Ho).
        destruct (Nat.eqb r' r), (Nat.eqb t' t); reflexivity.
      * intros q Hq. assert (HT : (0 < T)%nat) by (destruct T; lia). assert (Hpos : (0 < S * T)%nat) by lia.
        assert (Hp : (t' * (S * T) + q < X * (S * T))%nat) by nia.
        destruct (divmod r' (X * (S * T)) (t' * (S * T) + q) Hp) as [D1 M1]. destruct (divmod t' (S * T) q Hq) as [D2 M2].
        assert (D3 : ((r' * (X * (S * T)) + (t' * (S * T) + q)) / (S * T) = r' * X + t')%nat) by (symmetry; apply (Nat.div_unique _ (S * T) (r' * X + t') q); lia).
        assert (M3 : ((r' * (X * (S * T)) + (t' * (S * T) + q)) mod (S * T) = q)%nat) by (symmetry; apply (Nat.mod_unique _ (S * T) (r' * X + t') q); lia).
        assert (D4 : ((r' * (X * (S * T)) + (t' * (S * T) + q)) / T = (r' * X + t') * S + q / T)%nat).
        { symmetry. apply (Nat.div_unique _ T ((r' * X + t') * S + q / T) (q mod T)); [apply Nat.mod_upper_bound; lia|]. pose proof (Nat.div_mod q T ltac:(lia)). lia. }
        assert (M4 : ((r' * (X * (S * T)) + (t' * (S * T) + q)) mod T = q mod T)%nat).
        { symmetry. apply (Nat.mod_unique _ T ((r' * X + t') * S + q / T) (q mod T)); [apply Nat.mod_upper_bound; lia|]. pose proof (Nat.div_mod q T ltac:(lia)). lia. }
        unfold coordinates, same_coordinates, flat. rewrite Hf. fold R X S T.
        replace (T * S * X)%nat with (X * (S * T))%nat by lia. replace (T * S)%nat with (S * T)%nat by lia. rewrite D1, M1, D2, D3, M3, D4, M4.
        destruct (divmod r' X t' Ht') as [_ M5]. rewrite M5. assert (Hq' : (q / T < S)%nat) by (apply Nat.div_lt_upper_bound; lia).
        destruct (divmod (r' * X + t') S (q / T) Hq') as [_ M6]. rewrite M6. unfold v.
        destruct (Nat.eqb_spec r' r), (Nat.eqb_spec t' t), (Nat.eqb_spec q o), (Nat.eqb_spec q i); subst; cbn [andb]; rewrite ?Nat.eqb_refl; try reflexivity.
        destruct (Nat.eqb_spec o i); [contradiction|reflexivity].
Qed.
