(** Sums, means of independent draws and the flicker filter. *)
From Coq Require Import List Reals ZArith Bool Arith Lra Lia.
From Coquelicot Require Import Complex.
From Verif Require Import Base BaseLemmas Cplx Cplx_Proofs Chan_Model Chan_Spec Chan_Proofs Nz_Model Nz_Spec.
Import ListNotations.
Open Scope R_scope.

(** ** Real sums *)
Lemma rsum_ext : forall f g n, (forall k, (k < n)%nat -> f k = g k) -> rsum f n = rsum g n.
Proof. intros f g n. induction n as [|n IH]; intro H; [reflexivity|]. cbn [rsum]. rewrite IH, H by (try (intros; apply H); lia). reflexivity. Qed.
Lemma rsum_plus : forall f g n, rsum (fun k => f k + g k) n = rsum f n + rsum g n.
Proof. intros f g n. induction n as [|n IH]; cbn [rsum]; [ring|rewrite IH; ring]. Qed.
Lemma rsum_scal : forall c f n, rsum (fun k => c * f k) n = c * rsum f n.
Proof. intros c f n. induction n as [|n IH]; cbn [rsum]; [ring|rewrite IH; ring]. Qed.
Lemma rsum_0 : forall n, rsum (fun _ => 0) n = 0.
Proof. induction n as [|n IH]; cbn [rsum]; [reflexivity|rewrite IH; ring]. Qed.
Lemma rsum_const : forall c n, rsum (fun _ => c) n = INR n * c.
Proof. intros c n. induction n as [|n IH]; [cbn; ring|]. cbn [rsum]. rewrite IH, S_INR. ring. Qed.
Lemma rsum_swap : forall (f : nat -> nat -> R) n m, rsum (fun i => rsum (f i) m) n = rsum (fun j => rsum (fun i => f i j) n) m.
Proof.
  intros f n m. induction n as [|n IH]; cbn [rsum]; [symmetry; apply rsum_0|]. rewrite IH. rewrite <- rsum_plus. apply rsum_ext. reflexivity.
Qed.
Lemma rsum_app : forall f a b, rsum f (a + b) = rsum f a + rsum (fun k => f (a + k)%nat) b.
Proof. intros f a b. induction b as [|b IH]; [rewrite Nat.add_0_r; cbn; ring|]. rewrite Nat.add_succ_r. cbn [rsum]. rewrite IH. ring. Qed.
Lemma rsum_S_l : forall f n, rsum f (S n) = f 0%nat + rsum (fun k => f (S k)) n.
Proof. intros f n. induction n as [|n IH]; [cbn; ring|]. cbn [rsum] in *. rewrite IH. ring. Qed.
Lemma rsum_rev : forall f n, rsum f n = rsum (fun k => f (n - 1 - k)%nat) n.
Proof.
  intros f n. revert f. induction n as [|n IH]; intro f; [reflexivity|]. rewrite rsum_S_l. cbn [rsum]. rewrite (IH (fun k => f (S k))).
  rewrite Rplus_comm. f_equal; [|f_equal; lia]. apply rsum_ext. intros k H. f_equal. lia.
Qed.
Lemma rsum_delta : forall f n k, (k < n)%nat -> rsum (fun i => if Nat.eqb k i then f i else 0) n = f k.
Proof.
  intros f n k. induction n as [|n IH]; intro H; [lia|]. cbn [rsum]. destruct (Nat.eqb_spec k n) as [E|E].
  - subst k. rewrite (rsum_ext _ (fun _ => 0)); [rewrite rsum_0; ring|]. intros i L. destruct (Nat.eqb_spec n i); [lia|reflexivity].
  - rewrite IH by lia. ring.
Qed.
Lemma rsum_nonneg : forall f n, (forall k, (k < n)%nat -> 0 <= f k) -> 0 <= rsum f n.
Proof. intros f n. induction n as [|n IH]; intro H; cbn [rsum]; [lra|]. assert (0 <= f n) by (apply H; lia). assert (0 <= rsum f n) by (apply IH; intros; apply H; lia). lra. Qed.
Lemma rsum_C : forall f n, RtoC (rsum f n) = csum (fun k => RtoC (f k)) n.
Proof. intros f n. induction n as [|n IH]; [reflexivity|]. cbn [rsum csum]. rewrite RtoC_plus, IH. reflexivity. Qed.
Lemma sq_C : forall z, RtoC (sq z) = (z * conj z)%C.
Proof. intros [a b]. unfold sq, conj. apply injective_projections; cbn; ring. Qed.
Lemma RtoC_inj' : forall a b, RtoC a = RtoC b -> a = b.
Proof. intros a b H. injection H. auto. Qed.
Lemma sq_mult : forall a b, sq (a * b)%C = sq a * sq b.
Proof. intros [a b] [c d]. unfold sq. cbn. ring. Qed.
Lemma sq_R : forall a, sq (RtoC a) = a * a.
Proof. intro a. unfold sq. cbn. ring. Qed.
Lemma sq_cis : forall a, sq (cis a) = 1.
Proof. intro a. unfold sq, cis. cbn [fst snd]. pose proof (sin2_cos2 a) as H. unfold Rsqr in H. lra. Qed.
Lemma sq_nonneg : forall z, 0 <= sq z.
Proof. intros [a b]. unfold sq. cbn. nra. Qed.

(** ** Means *)
Lemma mean_ext : forall n f g, (forall w, (w < n)%nat -> f w = g w) -> mean n f = mean n g.
Proof. intros n f g H. unfold mean. rewrite (rsum_ext f g n H). reflexivity. Qed.
Lemma mean_plus : forall n f g, mean n (fun w => f w + g w) = mean n f + mean n g.
Proof. intros. unfold mean. rewrite rsum_plus. unfold Rdiv. ring. Qed.
Lemma mean_scal : forall n c f, mean n (fun w => c * f w) = c * mean n f.
Proof. intros. unfold mean. rewrite rsum_scal. unfold Rdiv. ring. Qed.
Lemma mean_const : forall n c, (0 < n)%nat -> mean n (fun _ => c) = c.
Proof. intros n c H. unfold mean. rewrite rsum_const. field. apply not_0_INR. lia. Qed.
Lemma mean_rsum : forall n f m, mean n (fun w => rsum (f w) m) = rsum (fun k => mean n (fun w => f w k)) m.
Proof. intros n f m. unfold mean. rewrite rsum_swap. unfold Rdiv. rewrite Rmult_comm, <- rsum_scal. apply rsum_ext. intros. ring. Qed.

(** ** Orthogonal draws *)
Lemma total_conj : forall {A} (f : A -> C) l, conj (total f l) = total (fun a => conj (f a)) l.
Proof. intros A f l. induction l as [|a l IH]; cbn [total]; [unfold conj; apply injective_projections; cbn; ring|]. rewrite conj_plus, IH. reflexivity. Qed.
Lemma total_pick : forall {A} (eqd : forall a b : A, {a = b} + {a <> b}) (g : A -> C) l e, NoDup l -> In e l -> total (fun f => if eqd e f then g f else RtoC 0) l = g e.
Proof.
  intros A eqd g l e. induction l as [|a l IH]; intros N I; [destruct I|]. inversion N as [|? ? Na Nl]; subst. cbn [total]. destruct (eqd e a) as [->|Ne].
  - rewrite (total_ext _ (fun _ => RtoC 0)); [rewrite total_0; ring|]. intros f Hf. destruct (eqd a f) as [->|]; [contradiction|reflexivity].
  - destruct I as [I|I]; [congruence|]. rewrite IH by assumption. ring.
Qed.
Lemma orthogonal : forall {A} (eqd : forall a b : A, {a = b} + {a <> b}) (l : list A) (c : A -> C) (z : nat -> A -> C) n (v : C), NoDup l ->
  (forall e f, In e l -> In f l -> csum (fun w => z w e * conj (z w f))%C n = if eqd e f then v else RtoC 0) ->
  csum (fun w => total (fun e => c e * z w e)%C l * conj (total (fun e => c e * z w e)%C l))%C n = (v * total (fun e => c e * conj (c e))%C l)%C.
Proof.
  intros A eqd l c z n v N H.
  rewrite (csum_ext _ (fun w => total (fun e => total (fun f => c e * conj (c f) * (z w e * conj (z w f)))%C l) l)).
  2:{ intros w _. rewrite total_conj. rewrite Cmult_comm, <- total_scal. apply total_ext. intros e _. rewrite Cmult_comm, <- total_scal. apply total_ext. intros f _. rewrite conj_mult. ring. }
  rewrite <- (total_csum (fun e w => total (fun f => c e * conj (c f) * (z w e * conj (z w f)))%C l)). rewrite <- total_scal. apply total_ext. intros e He.
  rewrite <- (total_csum (fun f w => (c e * conj (c f) * (z w e * conj (z w f)))%C)).
  rewrite (total_ext _ (fun f => if eqd e f then (v * (c e * conj (c f)))%C else RtoC 0)).
  - rewrite (total_pick eqd (fun f => v * (c e * conj (c f)))%C l e N He). reflexivity.
  - intros f Hf. rewrite csum_scal, (H e f He Hf). destruct (eqd e f); ring.
Qed.
Definition eq_pair (a b : nat * nat) : {a = b} + {a <> b}.
Proof. decide equality; apply Nat.eq_dec. Defined.
(** Weighted sums of different noise samples *)
Lemma white_csum : forall n rows cols u, white n rows cols u -> forall e f, (fst e < rows)%nat -> (snd e < cols)%nat -> (fst f < rows)%nat -> (snd f < cols)%nat ->
  csum (fun w => u w (fst e) (snd e) * conj (u w (fst f) (snd f)))%C n = if eq_pair e f then RtoC (2 * INR n) else RtoC 0.
Proof.
  intros n rows cols u [Hn [_ W]] [i a] [j b] Hi Ha Hj Hb. cbn [fst snd] in *.
  assert (Nn : INR n <> 0) by (apply not_0_INR; lia).
  destruct (W i a j b Hi Ha Hj Hb) as [W1 [W2 W3]]. destruct (W j b i a Hj Hb Hi Ha) as [_ [_ W4]].
  assert (M : forall g k, mean n g = k -> rsum g n = k * INR n). { intros g k E. unfold mean in E. rewrite <- E. field. exact Nn. }
  apply M in W1, W2, W3, W4.
  assert (K : csum (fun w => u w i a * conj (u w j b))%C n = (rsum (fun w => fst (u w i a) * fst (u w j b)) n + rsum (fun w => snd (u w i a) * snd (u w j b)) n,
     rsum (fun w => fst (u w j b) * snd (u w i a)) n + -1 * rsum (fun w => fst (u w i a) * snd (u w j b)) n)).
  { clear. induction n as [|n IH]; [apply injective_projections; cbn; ring|]. cbn [csum rsum]. rewrite IH. unfold conj. apply injective_projections; cbn; ring. }
  rewrite K, W1, W2, W3, W4. destruct (eq_pair (i, a) (j, b)) as [E|E].
  - injection E as -> ->. rewrite !Nat.eqb_refl. cbn [andb]. apply injective_projections; cbn; ring.
  - destruct (Nat.eqb_spec i j); destruct (Nat.eqb_spec a b); cbn [andb]; try (exfalso; apply E; congruence); apply injective_projections; cbn; ring.
Qed.
Lemma mean_sq_C : forall n f, (0 < n)%nat -> forall v, csum (fun w => f w * conj (f w))%C n = RtoC (v * INR n) -> mean n (fun w => sq (f w)) = v.
Proof.
  intros n f Hn v H. unfold mean. assert (E : rsum (fun w => sq (f w)) n = v * INR n).
  { apply RtoC_inj'. rewrite rsum_C, <- H. apply csum_ext. intros w _. apply sq_C. }
  rewrite E. field. apply not_0_INR. lia.
Qed.
Definition rtotal {A} (f : A -> R) (l : list A) : R := fold_right (fun a t => f a + t) 0 l.
Lemma rtotal_C : forall {A} (f : A -> R) l, RtoC (rtotal f l) = total (fun a => RtoC (f a)) l.
Proof. intros A f l. induction l as [|a l IH]; [reflexivity|]. cbn [rtotal fold_right total]. rewrite RtoC_plus. fold (rtotal f l). rewrite IH. reflexivity. Qed.
Lemma mean_weighted : forall n rows cols u, white n rows cols u -> forall (l : list (nat * nat)) (c : nat * nat -> C), NoDup l ->
  (forall e, In e l -> (fst e < rows)%nat /\ (snd e < cols)%nat) ->
  mean n (fun w => sq (total (fun e => c e * u w (fst e) (snd e))%C l)) = 2 * rtotal (fun e => sq (c e)) l.
Proof.
  intros n rows cols u W l c N I. apply mean_sq_C; [apply W|].
  rewrite (orthogonal eq_pair l c (fun w e => u w (fst e) (snd e)) n (RtoC (2 * INR n)) N).
  - rewrite (total_ext _ (fun e => RtoC (sq (c e)))) by (intros; symmetry; apply sq_C). rewrite <- rtotal_C, <- RtoC_mult. f_equal. ring.
  - intros e f He Hf. destruct (I e He), (I f Hf). apply (white_csum n rows cols u W); assumption.
Qed.
Lemma rtotal_map : forall {A B} (f : B -> R) (g : A -> B) l, rtotal f (map g l) = rtotal (fun a => f (g a)) l.
Proof. intros A B f g l. induction l as [|a l IH]; [reflexivity|]. cbn. f_equal. exact IH. Qed.
Lemma rtotal_seq : forall f n, rtotal f (seq 0 n) = rsum f n.
Proof. intros f n. apply RtoC_inj'. rewrite rtotal_C, rsum_C. apply total_seq. Qed.
(** sums along a family of different noise samples *)
Lemma mean_family : forall n rows cols u m (ix : nat -> nat * nat) (c : nat -> C), white n rows cols u ->
  (forall i j, (i < m)%nat -> (j < m)%nat -> ix i = ix j -> i = j) -> (forall i, (i < m)%nat -> (fst (ix i) < rows)%nat /\ (snd (ix i) < cols)%nat) ->
  mean n (fun w => sq (csum (fun i => c i * u w (fst (ix i)) (snd (ix i)))%C m)) = 2 * rsum (fun i => sq (c i)) m.
Proof.
  intros n rows cols u m ix c W Inj Rng. apply mean_sq_C; [apply W|].
  rewrite (csum_ext _ (fun w => total (fun e => c e * u w (fst (ix e)) (snd (ix e)))%C (seq 0 m) * conj (total (fun e => c e * u w (fst (ix e)) (snd (ix e)))%C (seq 0 m)))%C) by (intros; rewrite total_seq; reflexivity).
  rewrite (orthogonal Nat.eq_dec (seq 0 m) c (fun w e => u w (fst (ix e)) (snd (ix e))) n (RtoC (2 * INR n)) (seq_NoDup _ _)).
  - rewrite (total_ext _ (fun e => RtoC (sq (c e)))) by (intros; symmetry; apply sq_C). rewrite <- rtotal_C, rtotal_seq, <- RtoC_mult. f_equal. ring.
  - intros e f He Hf. apply in_seq in He, Hf. destruct (Rng e), (Rng f); try lia. rewrite (white_csum n rows cols u W) by assumption.
    destruct (eq_pair (ix e) (ix f)) as [E|E], (Nat.eq_dec e f) as [E'|E']; try reflexivity; [exfalso; apply E', Inj; try lia; exact E|exfalso; apply E; congruence].
Qed.

(** ** Adding noise to dense signals *)
Lemma add_to_dense : forall power draw d b before, offset b = 0%nat -> 0 < power ->
  exists y, add_to power draw (Dense d b) before = Ok (Dense d y, power) /\ streams y = streams b /\ samples y = samples b /\ offset y = offset b /\
  forall i n, (i < streams b)%nat -> (n < samples b)%nat -> x y i n = (x b i n + RtoC (sqrt (power / 2)) * draw (streams b) (samples b) i n)%C.
Proof.
  intros power draw d b before O P. unfold add_to. destruct (Rlt_dec power 0) as [?|_]; [lra|]. destruct (Req_EM_T power 0) as [?|_]; [lra|].
  unfold num_samples. cbn [blocks num_streams mapM]. unfold last_end. cbn [rev app]. rewrite O, Nat.add_0_l. unfold add_array. rewrite !Nat.eqb_refl. cbn [orb andb bind with_blocks hd].
  eexists. split; [reflexivity|]. cbn [streams samples offset x]. split; [reflexivity|]. split; [reflexivity|]. split; [congruence|]. intros i n Hi Hn.
  destruct (Nat.eqb_spec (streams b) 1) as [E1|_]; [replace i with 0%nat by lia|]; (destruct (Nat.eqb_spec (samples b) 1) as [E2|_]; [replace n with 0%nat by lia|]); reflexivity.
Qed.

(** ** The flicker filter *)
Lemma coefficient_S : forall k, INR (S k) * coefficient (S k) = (INR k + 3 / 2) * coefficient k.
Proof. intro k. cbn [coefficient]. rewrite S_INR. field. pose proof (pos_INR k). lra. Qed.
Lemma coefficient_pos : forall k, 0 < coefficient k.
Proof. induction k as [|k IH]; [cbn; lra|]. pose proof (coefficient_S k) as E. pose proof (pos_INR k). rewrite S_INR in E. nra. Qed.
Lemma coefficient_grows : forall k, coefficient k < coefficient (S k).
Proof. intro k. pose proof (coefficient_S k) as E. pose proof (pos_INR k). pose proof (coefficient_pos k). rewrite S_INR in E. nra. Qed.
Definition square (n : nat) : R := rsum (fun k => coefficient k * coefficient (n - k)) (S n).
Lemma square_step : forall n, INR (S n) * square (S n) = (INR n + 3) * square n.
Proof.
  intro n.
  assert (A : INR (S n) * square (S n) = 2 * rsum (fun k => INR k * coefficient k * coefficient (S n - k)) (S (S n))).
  { unfold square. rewrite <- rsum_scal.
    rewrite (rsum_ext _ (fun k => INR k * coefficient k * coefficient (S n - k) + INR (S n - k) * coefficient k * coefficient (S n - k))).
    2:{ intros k H. rewrite (minus_INR (S n) k) by lia. ring. }
    rewrite rsum_plus. rewrite (rsum_rev (fun k => INR (S n - k) * coefficient k * coefficient (S n - k))).
    rewrite (rsum_ext (fun k => INR (S n - (S (S n) - 1 - k)) * coefficient (S (S n) - 1 - k) * coefficient (S n - (S (S n) - 1 - k))) (fun k => INR k * coefficient k * coefficient (S n - k))); [ring|].
    intros k H. replace (S n - (S (S n) - 1 - k))%nat with k by lia. replace (S (S n) - 1 - k)%nat with (S n - k)%nat by lia. ring. }
  rewrite A, rsum_S_l. change (INR 0) with 0. rewrite !Rmult_0_l, Rplus_0_l.
  rewrite (rsum_ext _ (fun k => (INR k + 3 / 2) * (coefficient k * coefficient (n - k)))).
  2:{ intros k H. rewrite coefficient_S. replace (S n - S k)%nat with (n - k)%nat by lia. ring. }
  assert (B : 2 * rsum (fun k => INR k * (coefficient k * coefficient (n - k))) (S n) = INR n * square n).
  { unfold square. rewrite <- rsum_scal with (c := INR n).
    rewrite (rsum_ext (fun k => INR n * (coefficient k * coefficient (n - k))) (fun k => INR k * (coefficient k * coefficient (n - k)) + INR (n - k) * (coefficient k * coefficient (n - k)))).
    2:{ intros k H. rewrite (minus_INR n k) by lia. ring. }
    rewrite rsum_plus. rewrite (rsum_rev (fun k => INR (n - k) * (coefficient k * coefficient (n - k)))).
    rewrite (rsum_ext (fun k => INR (n - (S n - 1 - k)) * (coefficient (S n - 1 - k) * coefficient (n - (S n - 1 - k)))) (fun k => INR k * (coefficient k * coefficient (n - k)))); [ring|].
    intros k H. replace (n - (S n - 1 - k))%nat with k by lia. replace (S n - 1 - k)%nat with (n - k)%nat by lia. ring. }
  rewrite (rsum_ext _ (fun k => INR k * (coefficient k * coefficient (n - k)) + 3 / 2 * (coefficient k * coefficient (n - k)))) by (intros; ring).
  rewrite rsum_plus, rsum_scal. fold (square n). rewrite Rmult_plus_distr_l, B. field.
Qed.
Lemma square_closed : forall n, square n = (INR n + 1) * (INR n + 2) / 2.
Proof.
  induction n as [|n IH]; [unfold square; cbn; field|]. pose proof (square_step n) as E. rewrite IH in E. pose proof (pos_INR n) as P. rewrite S_INR in *.
  apply (Rmult_eq_reg_l (INR n + 1)); [|lra]. rewrite E. field.
Qed.
Lemma coefficient_bounds : forall k, INR k + 1 <= coefficient k * coefficient k <= 4 / 3 * INR k + 1.
Proof.
  induction k as [|k [L U]]; [cbn; lra|]. pose proof (coefficient_S k) as E. pose proof (pos_INR k) as P. rewrite S_INR in *. set (m := INR k) in *. set (c := coefficient k) in *. set (d := coefficient (S k)) in *.
  assert (Q : (m + 1) * (m + 1) * (d * d) = (m + 3 / 2) * (m + 3 / 2) * (c * c)). { replace ((m + 1) * (m + 1) * (d * d)) with (((m + 1) * d) * ((m + 1) * d)) by ring. rewrite E. ring. }
  split; (apply (Rmult_le_reg_l ((m + 1) * (m + 1))); [nra|rewrite Q]).
  - apply Rle_trans with ((m + 3 / 2) * (m + 3 / 2) * (m + 1)); [nra|]. apply Rmult_le_compat_l; [nra|exact L].
  - apply Rle_trans with ((m + 3 / 2) * (m + 3 / 2) * (4 / 3 * m + 1)); [apply Rmult_le_compat_l; [nra|exact U]|]. nra.
Qed.
Lemma integrated_sum : forall w n, integrated w n = rsum w (S n).
Proof. intros w n. induction n as [|n IH]; [cbn; ring|]. cbn [integrated]. rewrite IH. cbn [rsum]. ring. Qed.
Lemma rsum_mult : forall f g m p, rsum f m * rsum g p = rsum (fun k => rsum (fun l => f k * g l) p) m.
Proof. intros f g m p. induction m as [|m IH]; cbn [rsum]; [ring|]. rewrite Rmult_plus_distr_r, IH. rewrite rsum_scal. reflexivity. Qed.
Lemma mean_square_sum : forall n len (u : nat -> nat -> R), white_sequence n len u -> forall (c : nat -> R) m, (m <= len)%nat ->
  mean n (fun w => rsum (fun k => c k * u w k) m * rsum (fun k => c k * u w k) m) = rsum (fun k => c k * c k) m.
Proof.
  intros n len u [Hn W] c m L.
  rewrite (mean_ext n _ (fun w => rsum (fun k => rsum (fun l => c k * c l * (u w k * u w l)) m) m)).
  - rewrite mean_rsum. apply rsum_ext. intros k Hk. rewrite mean_rsum. rewrite (rsum_ext _ (fun l => if Nat.eqb k l then c k * c l else 0)).
    + apply (rsum_delta (fun l => c k * c l)). exact Hk.
    + intros l Hl. rewrite mean_scal, W by lia. destruct (Nat.eqb k l); ring.
  - intros w _. rewrite rsum_mult. apply rsum_ext. intros k _. apply rsum_ext. intros l _. ring.
Qed.
Lemma mean_cross_sum : forall n len (u v : nat -> nat -> R), unrelated n len u v -> forall (c d : nat -> R) m p, (m <= len)%nat -> (p <= len)%nat ->
  mean n (fun w => rsum (fun k => c k * u w k) m * rsum (fun k => d k * v w k) p) = 0.
Proof.
  intros n len u v W c d m p Lm Lp.
  rewrite (mean_ext n _ (fun w => rsum (fun k => rsum (fun l => c k * d l * (u w k * v w l)) p) m)).
  - rewrite mean_rsum. rewrite (rsum_ext _ (fun _ => 0)); [apply rsum_0|]. intros k Hk. rewrite mean_rsum. rewrite (rsum_ext _ (fun _ => 0)); [apply rsum_0|].
    intros l Hl. rewrite mean_scal, W by lia. ring.
  - intros w _. rewrite rsum_mult. apply rsum_ext. intros k _. apply rsum_ext. intros l _. ring.
Qed.
Lemma filtered_sum : forall h w n, filtered h w n = rsum (fun k => h (n - k)%nat * w k) (S n).
Proof.
  intros h w n. unfold filtered. rewrite rsum_rev. apply rsum_ext. intros k H. replace (S n - 1 - k)%nat with (n - k)%nat by lia. replace (n - (n - k))%nat with k by lia. reflexivity.
Qed.

(** ** Mean energy behind fading channels *)
Definition ray_gain (p : path) (k : nat) : R := if Nat.ltb k (length (nlos p)) then nlos_gain p else los_gain p.
Lemma impulse_rays : forall c p i, impulse c p i = csum (fun k => RtoC (sqrt (f_gain c * power p) * ray_gain p k) * ray c p i k)%C (S (length (nlos p))).
Proof.
  intros c p i. unfold impulse. cbv zeta. cbn [csum]. unfold ray_gain at 2, ray at 2. cbv zeta. rewrite Nat.ltb_irrefl, RtoC_mult.
  rewrite (csum_ext (fun k => RtoC (sqrt (f_gain c * power p) * ray_gain p k) * ray c p i k)%C
    (fun k => RtoC (sqrt (f_gain c * power p)) * (RtoC (nlos_gain p) * (let '(angle, ph) := nth k (nlos p) (0, 0) in cis (nlos_doppler c * (INR i / f_bandwidth c) * cos ((2 * PI * (1 + INR k) + angle) / INR (length (nlos p))) + ph))))%C).
  - rewrite csum_scal, csum_scal. ring.
  - intros k H. unfold ray_gain, ray. replace (Nat.ltb k (length (nlos p))) with true by (symmetry; apply Nat.ltb_lt; exact H). rewrite RtoC_mult. destruct (nth k (nlos p) (0, 0)). ring.
Qed.
Lemma ray_unit : forall c p i k, (ray c p i k * conj (ray c p i k))%C = RtoC 1.
Proof. intros. rewrite <- sq_C. f_equal. unfold ray. destruct (Nat.ltb k (length (nlos p))); [destruct (nth k (nlos p) (0, 0))|]; apply sq_cis. Qed.
Lemma total_nth : forall {A} (f : A -> C) l d, total f l = total (fun i => f (nth i l d)) (seq 0 (length l)).
Proof.
  intros A f l d. induction l as [|a l IH]; [reflexivity|]. cbn [length seq total nth]. rewrite IH, <- seq_shift, total_map. reflexivity.
Qed.
Lemma rtotal_ext : forall {A} (f g : A -> R) l, (forall a, In a l -> f a = g a) -> rtotal f l = rtotal g l.
Proof. intros A f g l H. induction l as [|a l IH]; [reflexivity|]. cbn. rewrite H by (left; reflexivity). f_equal. apply IH. intros; apply H; right; assumption. Qed.
Lemma rtotal_app : forall {A} (f : A -> R) l m, rtotal f (l ++ m) = rtotal f l + rtotal f m.
Proof. intros A f l m. unfold rtotal. induction l as [|a l IH]; cbn [app fold_right]; [ring|]. rewrite IH. ring. Qed.
Lemma rtotal_flat_map : forall {A B} (f : B -> R) (g : A -> list B) l, rtotal f (flat_map g l) = rtotal (fun a => rtotal f (g a)) l.
Proof. intros A B f g l. induction l as [|a l IH]; [reflexivity|]. cbn [flat_map]. rewrite rtotal_app, IH. reflexivity. Qed.
Lemma rtotal_scal : forall {A} c (f : A -> R) l, rtotal (fun a => c * f a) l = c * rtotal f l.
Proof. intros A c f l. unfold rtotal. induction l as [|a l IH]; cbn [fold_right]; [ring|]. rewrite IH. ring. Qed.
Lemma rtotal_rsum : forall {A} (f : A -> nat -> R) l n, rsum (fun j => rtotal (fun a => f a j) l) n = rtotal (fun a => rsum (f a) n) l.
Proof. intros A f l n. unfold rtotal. induction l as [|a l IH]; cbn [fold_right]; [apply rsum_0|]. rewrite <- IH, <- rsum_plus. reflexivity. Qed.
Lemma NoDup_pairs : forall (f : nat -> nat) l, NoDup l -> NoDup (flat_map (fun a => map (fun k => (a, k)) (seq 0 (f a))) l).
Proof.
  intros f l. induction l as [|a l IH]; intro N; [constructor|]. inversion N as [|? ? Na Nl]; subst. cbn [flat_map].
  assert (D : forall e, In e (map (fun k => (a, k)) (seq 0 (f a))) -> ~ In e (flat_map (fun a => map (fun k => (a, k)) (seq 0 (f a))) l)).
  { intros e H1 H2. apply in_map_iff in H1 as [k [<- _]]. apply in_flat_map in H2 as [b [Hb H2]]. apply in_map_iff in H2 as [k' [E _]]. injection E as -> _. contradiction. }
  assert (M : NoDup (map (fun k => (a, k)) (seq 0 (f a)))). { apply FinFun.Injective_map_NoDup; [intros i j E; congruence|apply seq_NoDup]. }
  revert D M. generalize (map (fun k => (a, k)) (seq 0 (f a))) as m. induction m as [|e m IHm]; intros D M; [exact (IH Nl)|]. cbn [app]. inversion M as [|? ? Me Mm]; subst. constructor.
  - intro I. apply in_app_or in I as [I|I]; [contradiction|]. exact (D e (or_introl eq_refl) I).
  - apply IHm; [|exact Mm]. intros e' He'. apply D. right. exact He'.
Qed.
Lemma shifted_energy : forall (f : nat -> R) d n total, (d + n <= total)%nat ->
  rsum (fun j => if (Nat.leb d j && Nat.ltb j (d + n))%bool then f (j - d)%nat else 0) total = rsum f n.
Proof.
  intros f d n total H. replace total with (d + (n + (total - d - n)))%nat by lia. rewrite rsum_app. rewrite rsum_app.
  rewrite (rsum_ext _ (fun _ => 0) d). 2:{ intros k L. destruct (Nat.leb_spec d k); [lia|reflexivity]. }
  rewrite (rsum_ext _ f n). 2:{ intros k L. destruct (Nat.leb_spec d (d + k)); [|lia]. destruct (Nat.ltb_spec (d + k) (d + n)); [|lia]. cbn [andb]. f_equal. lia. }
  rewrite (rsum_ext _ (fun _ => 0) (total - d - n)). 2:{ intros k L. destruct (Nat.ltb_spec (d + (n + k)) (d + n)); [lia|]. rewrite andb_false_r. reflexivity. }
  rewrite !rsum_0. ring.
Qed.
Lemma fold_rtotal : forall {A} (f : A -> R) l, fold_right Rplus 0 (map f l) = rtotal f l.
Proof. intros A f l. induction l as [|a l IH]; [reflexivity|]. cbn. f_equal. exact IH. Qed.
Lemma rtotal_nth : forall {A} (f : A -> R) l d, rtotal f l = rtotal (fun i => f (nth i l d)) (seq 0 (length l)).
Proof. intros. apply RtoC_inj'. rewrite !rtotal_C. apply (total_nth (fun a => RtoC (f a))). Qed.

Lemma fading_mean : forall n c c0 s, scattered n c c0 -> 0 <= f_bandwidth c0 -> streams s = 1%nat -> 0 <= f_gain c0 ->
  (forall p, In p (paths c0) -> 0 <= power p /\ unit_power p) ->
  exists y, (forall w, (w < n)%nat -> fading_propagate (c w) s = Ok (y w)) /\ mean n (fun w => energy (y w) 0) = fading_scale c0 * energy s 0.
Proof.
  intros n c c0 s [Hn [Same Unc]] Hb Hs Hg Hp. set (A := length (paths c0)) in *. set (q := fun a => nth a (paths c0) no_path). set (p := fun w a => nth a (paths (c w)) no_path).
  assert (Fr : forall w, (w < n)%nat -> exists y, fading_propagate (c w) s = Ok y /\ streams y = 1%nat /\ samples y = (samples s + in_samples (max_delay c0) (f_bandwidth c0))%nat /\
     forall j, (j < samples y)%nat -> x y 0%nat j = total (fun a => if (Nat.leb (path_delay c0 (q a)) j && Nat.ltb j (path_delay c0 (q a) + samples s))%bool
                                       then (impulse (c w) (p w a) (j - path_delay c0 (q a)) * x s 0%nat (j - path_delay c0 (q a))%nat)%C else RtoC 0) (seq 0 A)).
  { intros w Hw. destruct (Same w Hw) as [R1 [R2 [R3 [R4 [Eb [Eg [Er [El Ep]]]]]]]].
    destruct (fading_received (c w) s) as [y [E [S1 [S2 [_ V]]]]]; [rewrite Eb; exact Hb|rewrite R2, R4, Hs; reflexivity|].
    rewrite R1, R3 in S1. cbn [Nat.min] in S1.
    assert (Ed : map p_delay (paths (c w)) = map p_delay (paths c0)).
    { apply (nth_ext _ _ (p_delay no_path) (p_delay no_path)); [rewrite !map_length; exact El|]. intros a Ha. rewrite map_length in Ha. rewrite !map_nth. apply (Ep a). rewrite El in Ha. exact Ha. }
    exists y. split; [exact E|]. split; [exact S1|]. split; [rewrite S2; unfold max_delay; rewrite Ed, Eb; reflexivity|].
    intros j Hj. rewrite V by lia. unfold received, fading_taps. rewrite total_map, (total_nth _ _ no_path), El. apply total_ext. intros a Ha. apply in_seq in Ha. cbn [td weight].
    assert (Ea : path_delay (c w) (nth a (paths (c w)) no_path) = path_delay c0 (q a)). { unfold path_delay. destruct (Ep a ltac:(lia)) as [-> _]. rewrite Eb. reflexivity. }
    rewrite Ea, Hs. cbn [csum]. destruct (_ && _)%bool; [|ring]. rewrite Er. unfold p. ring. }
  assert (Ex : exists y, forall w, (w < n)%nat -> fading_propagate (c w) s = Ok (y w) /\ samples (y w) = (samples s + in_samples (max_delay c0) (f_bandwidth c0))%nat /\
     forall j, (j < samples (y w))%nat -> x (y w) 0%nat j = total (fun a => if (Nat.leb (path_delay c0 (q a)) j && Nat.ltb j (path_delay c0 (q a) + samples s))%bool
                                       then (impulse (c w) (p w a) (j - path_delay c0 (q a)) * x s 0%nat (j - path_delay c0 (q a))%nat)%C else RtoC 0) (seq 0 A)).
  { exists (fun w => match fading_propagate (c w) s with Ok y => y | Raise _ => s end). intros w Hw. destruct (Fr w Hw) as [y [E [_ H]]]. rewrite E. split; [reflexivity|exact H]. }
  destruct Ex as [y Y]. exists y. split; [intros w Hw; apply Y, Hw|]. clear Fr.
  set (T := (samples s + in_samples (max_delay c0) (f_bandwidth c0))%nat) in *. set (d := fun a => path_delay c0 (q a)) in *.
  set (E := flat_map (fun a => map (fun k => (a, k)) (seq 0 (S (length (nlos (q a)))))) (seq 0 A)).
  set (Cf := fun j (e : nat * nat) => let '(a, k) := e in if (Nat.leb (d a) j && Nat.ltb j (d a + samples s))%bool
               then (RtoC (sqrt (f_gain c0 * power (q a)) * ray_gain (q a) k) * x s 0%nat (j - d a)%nat)%C else RtoC 0).
  set (Z := fun j w (e : nat * nat) => let '(a, k) := e in ray (c w) (p w a) (j - d a) k).
  assert (In_E : forall a k, In (a, k) E -> (a < A)%nat /\ (k <= length (nlos (q a)))%nat).
  { intros a k H. unfold E in H. apply in_flat_map in H as [b [Hb' H]]. apply in_map_iff in H as [k' [Ek Hk]]. injection Ek as -> ->. apply in_seq in Hb', Hk. lia. }
  assert (M : forall j, (j < T)%nat -> mean n (fun w => sq (x (y w) 0%nat j)) = rtotal (fun e => sq (Cf j e)) E).
  { intros j Hj. apply mean_sq_C; [exact Hn|].
    rewrite (csum_ext _ (fun w => total (fun e => Cf j e * Z j w e)%C E * conj (total (fun e => Cf j e * Z j w e)%C E))%C).
    - rewrite (orthogonal eq_pair E (Cf j) (Z j) n (RtoC (INR n))).
      + rewrite (total_ext _ (fun e => RtoC (sq (Cf j e)))) by (intros; symmetry; apply sq_C). rewrite <- rtotal_C, <- RtoC_mult. f_equal. ring.
      + apply (NoDup_pairs (fun a => S (length (nlos (q a))))). apply seq_NoDup.
      + intros [a k] [b l] He Hf. apply In_E in He, Hf. destruct (eq_pair (a, k) (b, l)) as [Ee|Ee].
        * injection Ee as -> ->. rewrite (csum_ext _ (fun _ => RtoC 1)); [rewrite csum_const; ring|]. intros w _. apply ray_unit.
        * apply Unc; try tauto.
    - intros w Hw. destruct (Y w Hw) as [_ [Sy V]]. assert (K : x (y w) 0%nat j = total (fun e => Cf j e * Z j w e)%C E); [|rewrite K; reflexivity].
      rewrite V by lia. unfold E. rewrite total_flat_map. apply total_ext. intros a Ha. apply in_seq in Ha. rewrite total_map, total_seq.
      destruct (Same w Hw) as [_ [_ [_ [_ [_ [Eg [_ [_ Ep]]]]]]]]. destruct (Ep a ltac:(lia)) as [_ [Pp [Pl [Pn Pk]]]]. fold (p w a) (q a) in Pp, Pl, Pn, Pk.
      unfold Cf, Z. fold (d a). destruct (_ && _)%bool.
      + rewrite impulse_rays, Eg, Pp, Pk, <- csum_scal_r. apply csum_ext. intros k Hk. unfold ray_gain. rewrite Pk, Pn, Pl. ring.
      + rewrite (csum_ext _ (fun _ => RtoC 0)); [symmetry; apply csum_0|]. intros; ring. }
  unfold energy. rewrite (mean_ext n _ (fun w => rsum (fun j => sq (x (y w) 0%nat j)) T)).
  2:{ intros w Hw. destruct (Y w Hw) as [_ [-> _]]. reflexivity. }
  rewrite mean_rsum. rewrite (rsum_ext _ (fun j => rtotal (fun a => if (Nat.leb (d a) j && Nat.ltb j (d a + samples s))%bool then f_gain c0 * power (q a) * sq (x s 0%nat (j - d a)%nat) else 0) (seq 0 A))).
  - rewrite (rtotal_rsum (fun a j => if (Nat.leb (d a) j && Nat.ltb j (d a + samples s))%bool then f_gain c0 * power (q a) * sq (x s 0%nat (j - d a)%nat) else 0)).
    unfold fading_scale. rewrite fold_rtotal, (rtotal_nth power (paths c0) no_path), <- rtotal_scal, Rmult_comm, <- rtotal_scal. apply rtotal_ext. intros a Ha. apply in_seq in Ha.
    rewrite (shifted_energy (fun i => f_gain c0 * power (q a) * sq (x s 0%nat i))).
    + rewrite rsum_scal. unfold q. ring.
    + unfold T, d. assert (path_delay c0 (q a) <= in_samples (max_delay c0) (f_bandwidth c0))%nat; [|lia]. apply path_delay_max; [exact Hb|]. apply nth_In. fold A. lia.
  - intros j Hj. rewrite M by exact Hj. unfold E. rewrite rtotal_flat_map. apply rtotal_ext. intros a Ha. apply in_seq in Ha. rewrite rtotal_map, rtotal_seq. unfold Cf.
    destruct (_ && _)%bool.
    + assert (I : In (q a) (paths c0)) by (apply nth_In; fold A; lia). destruct (Hp _ I) as [Pp U]. unfold unit_power in U.
      rewrite (rsum_ext _ (fun k => f_gain c0 * power (q a) * sq (x s 0%nat (j - d a)%nat) * (ray_gain (q a) k * ray_gain (q a) k))).
      2:{ intros k _. rewrite sq_mult, sq_R. replace (sqrt (f_gain c0 * power (q a)) * ray_gain (q a) k * (sqrt (f_gain c0 * power (q a)) * ray_gain (q a) k)) with (sqrt (f_gain c0 * power (q a)) * sqrt (f_gain c0 * power (q a)) * (ray_gain (q a) k * ray_gain (q a) k)) by ring.
          rewrite sqrt_sqrt by (apply Rmult_le_pos; assumption). ring. }
      rewrite rsum_scal. cbn [rsum]. rewrite (rsum_ext _ (fun _ => nlos_gain (q a) * nlos_gain (q a))).
      2:{ intros k Hk. unfold ray_gain. replace (Nat.ltb k (length (nlos (q a)))) with true by (symmetry; apply Nat.ltb_lt; exact Hk). reflexivity. }
      rewrite rsum_const. unfold ray_gain. rewrite Nat.ltb_irrefl. replace (INR (length (nlos (q a))) * (nlos_gain (q a) * nlos_gain (q a)) + los_gain (q a) * los_gain (q a)) with 1 by lra. ring.
    + rewrite (rsum_ext _ (fun _ => 0)); [apply rsum_0|]. intros. unfold sq. cbn. ring.
Qed.
