(** Proofs about powers of signals and their evaluation. *)
From Coq Require Import List Reals Bool Arith Lia Lra.
From Coquelicot Require Import Complex.
From Verif Require Import Base BaseLemmas Signal_Model Signal_Spec Signal_Proofs Pwr_Model Pwr_Spec.
Import ListNotations.
Open Scope R_scope.

(** ** Sums *)
Lemma sum_to_ext : forall f g n, (forall k, (k < n)%nat -> f k = g k) -> sum_to f n = sum_to g n.
Proof. intros f g n. induction n as [|n IH]; intro H; [reflexivity|]. cbn [sum_to]. rewrite IH, H by (try (intros; apply H); lia). reflexivity. Qed.
Lemma sum_to_plus : forall f g n, sum_to (fun k => f k + g k) n = sum_to f n + sum_to g n.
Proof. intros f g n. induction n as [|n IH]; cbn [sum_to]; [ring|rewrite IH; ring]. Qed.
Lemma sum_to_scal : forall c f n, sum_to (fun k => c * f k) n = c * sum_to f n.
Proof. intros c f n. induction n as [|n IH]; cbn [sum_to]; [ring|rewrite IH; ring]. Qed.
Lemma sum_to_0 : forall n, sum_to (fun _ => 0) n = 0.
Proof. induction n as [|n IH]; cbn [sum_to]; [reflexivity|rewrite IH; ring]. Qed.
Lemma sum_to_const : forall c n, sum_to (fun _ => c) n = INR n * c.
Proof. intros c n. induction n as [|n IH]; [cbn; ring|]. cbn [sum_to]. rewrite IH, S_INR. ring. Qed.
Lemma sum_to_app : forall f a b, sum_to f (a + b) = sum_to f a + sum_to (fun k => f (a + k)%nat) b.
Proof. intros f a b. induction b as [|b IH]; [rewrite Nat.add_0_r; cbn; ring|]. rewrite Nat.add_succ_r. cbn [sum_to]. rewrite IH. ring. Qed.
Lemma sum_to_S_l : forall f n, sum_to f (S n) = f 0%nat + sum_to (fun k => f (S k)) n.
Proof. intros f n. induction n as [|n IH]; [cbn; ring|]. cbn [sum_to] in *. rewrite IH. ring. Qed.
Lemma sum_to_nonneg : forall f n, (forall k, (k < n)%nat -> 0 <= f k) -> 0 <= sum_to f n.
Proof. intros f n. induction n as [|n IH]; intro H; cbn [sum_to]; [lra|]. assert (0 <= f n) by (apply H; lia). assert (0 <= sum_to f n) by (apply IH; intros; apply H; lia). lra. Qed.
Lemma sum_to_le : forall f g n, (forall k, (k < n)%nat -> f k <= g k) -> sum_to f n <= sum_to g n.
Proof. intros f g n. induction n as [|n IH]; intro H; cbn [sum_to]; [lra|]. assert (f n <= g n) by (apply H; lia). assert (sum_to f n <= sum_to g n) by (apply IH; intros; apply H; lia). lra. Qed.
Lemma sum_to_ge_term : forall f n k, (forall i, (i < n)%nat -> 0 <= f i) -> (k < n)%nat -> f k <= sum_to f n.
Proof.
  intros f n k. induction n as [|n IH]; intros H L; [lia|]. cbn [sum_to]. destruct (Nat.eq_dec k n) as [->|D].
  - assert (0 <= sum_to f n) by (apply sum_to_nonneg; intros; apply H; lia). lra.
  - assert (f k <= sum_to f n) by (apply IH; [intros; apply H; lia|lia]). assert (0 <= f n) by (apply H; lia). lra.
Qed.
(** Equality in a sum of bounded terms forces equality of all terms. *)
Lemma sum_to_eq : forall f g n, (forall k, (k < n)%nat -> f k <= g k) -> sum_to f n = sum_to g n -> forall k, (k < n)%nat -> f k = g k.
Proof.
  intros f g n. induction n as [|n IH]; intros H E k L; [lia|]. cbn [sum_to] in E.
  assert (A : f n <= g n) by (apply H; lia). assert (B : sum_to f n <= sum_to g n) by (apply sum_to_le; intros; apply H; lia).
  destruct (Nat.eq_dec k n) as [->|D]; [lra|]. apply IH; [intros; apply H; lia|lra|lia].
Qed.
Lemma sum_to_swap : forall (f : nat -> nat -> R) n m, sum_to (fun i => sum_to (f i) m) n = sum_to (fun j => sum_to (fun i => f i j) n) m.
Proof.
  intros f n m. induction n as [|n IH]; cbn [sum_to]; [symmetry; apply sum_to_0|]. rewrite IH, <- sum_to_plus. apply sum_to_ext. reflexivity.
Qed.

Lemma add_up_seq : forall f n, add_up (map f (seq 0 n)) = sum_to f n.
Proof.
  intros f n. revert f. induction n as [|n IH]; intro f; [reflexivity|]. rewrite sum_to_S_l, <- IH.
  cbn [seq map]. unfold add_up. cbn [fold_right]. rewrite <- seq_shift, map_map. reflexivity.
Qed.
Lemma add_up_app : forall l m, add_up (l ++ m) = add_up l + add_up m.
Proof. intros l m. unfold add_up. induction l as [|a l IH]; cbn [app fold_right]; [ring|rewrite IH; ring]. Qed.
Lemma add_up_nonneg : forall l, (forall a, In a l -> 0 <= a) -> 0 <= add_up l.
Proof.
  intros l. unfold add_up. induction l as [|a l IH]; intro H; cbn [fold_right]; [lra|].
  assert (0 <= a) by (apply H; left; reflexivity). assert (0 <= fold_right Rplus 0 l) by (apply IH; intros; apply H; right; assumption). lra.
Qed.
Lemma add_up_map : forall {A} (f : A -> R) l d, add_up (map f l) = sum_to (fun i => f (nth i l d)) (length l).
Proof.
  intros A f l d. rewrite <- add_up_seq. f_equal. rewrite <- (map_map (fun i => nth i l d) f). f_equal.
  induction l as [|a l IH]; [reflexivity|]. cbn [length seq map nth]. f_equal. rewrite <- seq_shift, map_map. exact IH.
Qed.

Lemma magnitude2_level : forall z, magnitude2 z = (fst z)^2 + (snd z)^2.
Proof. intro z. unfold magnitude2. ring. Qed.
Lemma magnitude2_nonneg : forall z, 0 <= magnitude2 z.
Proof. intro z. unfold magnitude2. nra. Qed.
Lemma level_nonneg : forall x s t, 0 <= level x s t.
Proof. intros x s t. unfold level. rewrite <- magnitude2_level. apply magnitude2_nonneg. Qed.

Lemma ratio_some : forall a b, b <> 0 -> ratio a b = Some (a / b).
Proof. intros a b H. unfold ratio. destruct (Req_EM_T b 0); [contradiction|reflexivity]. Qed.
Lemma ratio_none : forall a, ratio a 0 = None.
Proof. intros a. unfold ratio. destruct (Req_EM_T 0 0); [reflexivity|contradiction]. Qed.
Lemma nan_sum_some : forall {A} (f : A -> R) l, nan_sum (map (fun a => Some (f a)) l) = Some (add_up (map f l)).
Proof. intros A f l. unfold nan_sum, add_up. induction l as [|a l IH]; [reflexivity|]. cbn [map fold_right]. rewrite IH. reflexivity. Qed.
Lemma nan_sum_none : forall l, In None l -> nan_sum l = None.
Proof.
  intros l. unfold nan_sum. induction l as [|a l IH]; intro H; [destruct H|]. cbn [fold_right]. destruct H as [->|H]; [reflexivity|]. rewrite (IH H). destruct a; reflexivity.
Qed.
Lemma INR_pos : forall n, (0 < n)%nat -> 0 < INR n.
Proof. intros n H. apply (lt_INR 0). exact H. Qed.

(** ** Energies and powers *)
Lemma block_energy_eq : forall b, block_energy b = map (fun s => add_up (map (fun c => magnitude2 (entry c s)) (k_cols b))) (seq 0 (k_ns b)).
Proof.
  intro b. unfold block_energy. apply map_ext. intro s. cbn zeta. apply sqrt_sqrt. apply add_up_nonneg. intros a H.
  apply in_map_iff in H. destruct H as (c & <- & _). apply magnitude2_nonneg.
Qed.
Lemma dense_level : forall d s t, (t < length (d_cols d))%nat -> level (Dense d) s t = magnitude2 (entry (nth t (d_cols d) []) s).
Proof.
  intros d s t H. unfold level, sample, value. cbn [blocks at_blocks]. unfold at_block. cbn [k_off k_cols Nat.leb]. rewrite Nat.sub_0_r.
  rewrite (nth_error_nth' _ [] H). unfold magnitude2, entry. ring.
Qed.
Lemma dense_energy : forall d, energy (Dense d) = map (stream_energy (Dense d)) (seq 0 (d_ns d)).
Proof.
  intro d. cbn [energy]. rewrite block_energy_eq. cbn [k_ns k_cols]. apply map_ext. intro s. rewrite (add_up_map _ _ []).
  unfold stream_energy. cbn [num_samples]. apply sum_to_ext. intros t H. symmetry. apply dense_level. exact H.
Qed.
Lemma dense_power : forall d, (0 < length (d_cols d))%nat ->
  power (Dense d) = map (fun s => Some (stream_energy (Dense d) s / INR (length (d_cols d)))) (seq 0 (d_ns d)).
Proof.
  intros d H. cbn [power]. unfold block_power. cbn [k_cols]. change (block_energy (mkB 0 (d_ns d) (d_cols d))) with (energy (Dense d)). rewrite dense_energy, map_map.
  apply map_ext. intro s. apply ratio_some. apply Rgt_not_eq. apply INR_pos. exact H.
Qed.

(** Contribution of a block to a stream, and the energy of ordered blocks as a sum over instants. *)
Definition part (b : cblock) (s : nat) : R := add_up (map (fun c => magnitude2 (entry c s)) (k_cols b)).
Definition block_level (ns : nat) (bs : list cblock) (s t : nat) : R :=
  magnitude2 (nth s (match at_blocks bs t with Some c => c | None => repeat (RtoC 0) ns end) (RtoC 0)).
Lemma sparse_level : forall bs s t, level (Sparse bs) s t = block_level (sp_ns bs) bs s t.
Proof. intros bs s t. unfold level, sample, value, block_level. cbn [blocks num_streams]. rewrite magnitude2_level. reflexivity. Qed.
Lemma nth_zeros : forall n s, nth s (repeat (RtoC 0) n) (RtoC 0) = RtoC 0.
Proof. induction n as [|n IH]; intros [|s]; cbn; auto. Qed.
Lemma magnitude2_0 : magnitude2 (RtoC 0) = 0.
Proof. unfold magnitude2. cbn. ring. Qed.

Lemma at_blocks_before : forall (bs : list cblock) lo t, ordered lo bs -> (t < lo)%nat -> at_blocks bs t = None.
Proof.
  induction bs as [|b bs IH]; intros lo t H L; [reflexivity|]. destruct H as [H1 H2]. cbn [at_blocks]. unfold at_block.
  destruct (Nat.leb_spec (k_off b) t) as [H3|H3]; [lia|]. apply (IH (k_end b)); [exact H2|unfold k_end; lia].
Qed.
Lemma energy_over_time : forall (bs : list cblock) ns s lo n, ordered lo bs -> (forall b, In b bs -> (k_end b <= lo + n)%nat) ->
  sum_to (fun i => block_level ns bs s (lo + i)%nat) n = add_up (map (fun b => part b s) bs).
Proof.
  induction bs as [|b bs IH]; intros ns s lo n O E.
  - cbn [map]. unfold add_up. cbn [fold_right]. rewrite (sum_to_ext _ (fun _ => 0)); [apply sum_to_0|]. intros k _. unfold block_level. cbn [at_blocks].
    rewrite nth_zeros. apply magnitude2_0.
  - destruct O as [O1 O2]. pose proof (E b (or_introl eq_refl)) as Eb. unfold k_end in Eb.
    set (w := length (k_cols b)) in *. set (g := (k_off b - lo)%nat). set (r := (n - g - w)%nat).
    replace n with (g + (w + r))%nat by (unfold g, r; lia). rewrite sum_to_app, sum_to_app.
    rewrite (sum_to_ext _ (fun _ => 0) g), sum_to_0.
    2:{ intros k L. unfold block_level. rewrite (at_blocks_before _ (k_off b)); [rewrite nth_zeros; apply magnitude2_0| |unfold g in L; lia].
        split; [lia|exact O2]. }
    rewrite (sum_to_ext _ (fun i => magnitude2 (entry (nth i (k_cols b) []) s)) w).
    2:{ intros k L. unfold block_level. cbn [at_blocks]. unfold at_block. replace (lo + (g + k))%nat with (k_off b + k)%nat by (unfold g; lia).
        destruct (Nat.leb_spec (k_off b) (k_off b + k)) as [_|Q]; [|lia]. replace (k_off b + k - k_off b)%nat with k by lia.
        rewrite (nth_error_nth' _ [] L). reflexivity. }
    assert (W : sum_to (fun i => magnitude2 (entry (nth i (k_cols b) []) s)) w = part b s) by (unfold part; rewrite (add_up_map _ _ []); reflexivity). rewrite W.
    rewrite (sum_to_ext _ (fun i => block_level ns bs s (k_end b + i)%nat) r).
    2:{ intros k L. unfold block_level. cbn [at_blocks]. unfold at_block. replace (lo + (g + (w + k)))%nat with (k_end b + k)%nat by (unfold k_end, w, g in *; lia).
        destruct (Nat.leb_spec (k_off b) (k_end b + k)) as [Q|Q]; [|unfold k_end in Q; lia].
        replace (nth_error (k_cols b) (k_end b + k - k_off b)) with (@None (list C)); [reflexivity|]. symmetry. apply nth_error_None. unfold k_end. lia. }
    rewrite (IH ns s (k_end b) r O2). { cbn [map]. unfold add_up. cbn [fold_right]. ring. }
    intros b' H. pose proof (E b' (or_intror H)). unfold k_end at 2. fold w. unfold r, g. lia.
Qed.
Lemma sparse_stream_energy : forall bs s, ordered 0 bs -> stream_energy (Sparse bs) s = add_up (map (fun b => part b s) bs).
Proof.
  intros bs s O. unfold stream_energy. cbn [num_samples]. rewrite <- (energy_over_time bs (sp_ns bs) s 0 (sp_n bs) O).
  - apply sum_to_ext. intros t _. rewrite sparse_level. reflexivity.
  - intros b H. cbn [Nat.add]. eapply sp_n_spec; eassumption.
Qed.
Lemma block_total : forall b, add_up (block_energy b) = sum_to (part b) (k_ns b).
Proof. intro b. rewrite block_energy_eq. rewrite add_up_seq. reflexivity. Qed.
Lemma add_up_swap : forall (bs : list cblock) n, add_up (map (fun b => sum_to (part b) n) bs) = sum_to (fun s => add_up (map (fun b => part b s) bs)) n.
Proof.
  intros bs n. induction bs as [|b bs IH]; unfold add_up in *; cbn [map fold_right]; [symmetry; apply sum_to_0|]. rewrite IH, <- sum_to_plus. reflexivity.
Qed.
Lemma sound_streams : forall bs b, sound (Sparse bs) -> In b bs -> k_ns b = sp_ns bs.
Proof. intros bs b [H _] I. cbn [blocks num_streams] in H. unfold streams_ok in H. rewrite List.Forall_forall in H. apply (H b I). Qed.
Lemma sparse_energy : forall bs, sound (Sparse bs) -> energy (Sparse bs) = [sum_to (stream_energy (Sparse bs)) (sp_ns bs)].
Proof.
  intros bs H. cbn [energy]. f_equal.
  rewrite (sum_to_ext _ (fun s => add_up (map (fun b => part b s) bs))) by (intros s _; apply sparse_stream_energy; apply H).
  rewrite <- add_up_swap. f_equal. apply map_ext_in. intros b I. rewrite block_total. rewrite (sound_streams bs b H I). reflexivity.
Qed.
Lemma block_power_nth : forall b s, (s < k_ns b)%nat -> (0 < length (k_cols b))%nat -> nth s (block_power b) None = Some (part b s / INR (length (k_cols b))).
Proof.
  intros b s H L. unfold block_power. rewrite block_energy_eq, map_map.
  set (f := fun x => ratio (add_up (map (fun c => magnitude2 (entry c x)) (k_cols b))) (INR (length (k_cols b)))).
  rewrite (nth_indep _ None (f 0%nat)) by (rewrite map_length, seq_length; exact H). rewrite map_nth, seq_nth by exact H. unfold f.
  apply ratio_some. apply Rgt_not_eq. apply INR_pos. exact L.
Qed.
Lemma sparse_power : forall bs, sound (Sparse bs) -> bs <> [] -> (forall b, In b bs -> (0 < length (k_cols b))%nat) ->
  power (Sparse bs) = map (fun s => Some (add_up (map (fun b => part b s / INR (length (k_cols b))) bs) / INR (length bs))) (seq 0 (sp_ns bs)).
Proof.
  intros bs H N L. destruct bs as [|b0 bs0]; [contradiction|]. set (bs := b0 :: bs0) in *. change (power (Sparse bs)) with
    (map (fun i => nan_mean (map (fun b' => nth i (block_power b') None) bs)) (seq 0 (sp_ns bs))). apply map_ext_in. intros s I. apply in_seq in I.
  rewrite (map_ext_in _ (fun b => Some (part b s / INR (length (k_cols b)))) bs).
  2:{ intros b J. apply block_power_nth; [rewrite (sound_streams bs b H J); lia|apply L; exact J]. }
  unfold nan_mean. rewrite nan_sum_some, map_length. apply ratio_some. apply Rgt_not_eq. apply INR_pos. cbn. lia.
Qed.

(** ** Peak-to-average ratios *)
Lemma dense_form_levels : forall x, sound x -> exists d, dense_form x = Ok d /\
  instantaneous d = map (fun s => map (level x s) (seq 0 (num_samples x))) (seq 0 (num_streams x)).
Proof.
  intros [d|bs] H.
  - exists d. split; [reflexivity|]. unfold instantaneous. cbn [num_samples num_streams]. apply map_ext. intro s.
    apply (nth_ext _ _ 0 0); [rewrite !map_length, seq_length; reflexivity|]. intros t L. rewrite map_length in L.
    rewrite (nth_indep _ 0 (magnitude2 (entry [] s))) by (rewrite map_length; exact L). rewrite (map_nth (fun c => magnitude2 (entry c s))).
    rewrite (nth_indep (map (level (Dense d) s) _) 0 (level (Dense d) s 0%nat)) by (rewrite map_length, seq_length; exact L).
    rewrite map_nth, seq_nth by exact L. symmetry. apply dense_level. exact L.
  - destruct bs as [|b0 bs0]; [exists (mkD 0 []); split; reflexivity|]. set (bs := b0 :: bs0) in *. cbn [dense_form num_samples num_streams].
    destruct (to_dense_spec C (RtoC 0) (sp_ns bs) bs H ltac:(discriminate)) as (d & E & N1 & N2 & N3).
    exists d. split; [exact E|]. unfold instantaneous. rewrite N1. apply map_ext. intro s.
    apply (nth_ext _ _ 0 0); [rewrite !map_length, seq_length; exact N2|]. intros t L. rewrite map_length in L.
    rewrite (nth_indep _ 0 (magnitude2 (entry [] s))) by (rewrite map_length; exact L). rewrite (map_nth (fun c => magnitude2 (entry c s))).
    rewrite N2 in L. rewrite (nth_indep (map (level (Sparse bs) s) _) 0 (level (Sparse bs) s 0%nat)) by (rewrite map_length, seq_length; exact L).
    rewrite map_nth, seq_nth by exact L. cbn [Nat.add]. specialize (N3 t L). apply (nth_error_nth _ _ []) in N3. rewrite N3. unfold level, sample, entry.
    rewrite magnitude2_level. reflexivity.
Qed.
Lemma fold_max : forall l a, (a <= fold_left Rmax l a) /\ (forall b, In b l -> b <= fold_left Rmax l a) /\ (fold_left Rmax l a = a \/ In (fold_left Rmax l a) l).
Proof.
  induction l as [|b l IH]; intro a; cbn [fold_left]; [repeat split; [lra|intros b []|left; reflexivity]|].
  destruct (IH (Rmax a b)) as (H1 & H2 & H3). pose proof (Rmax_l a b). pose proof (Rmax_r a b). repeat split; [lra| |].
  - intros c [->|I]; [lra|apply H2; exact I].
  - destruct H3 as [H3|H3]; [|right; right; exact H3]. rewrite H3. unfold Rmax. destruct (Rle_dec a b); [right; left; reflexivity|left; reflexivity].
Qed.
(** The largest value of a function below a bound. *)
Definition top (f : nat -> R) (n : nat) : R := match map f (seq 0 n) with [] => 0 | a :: l => fold_left Rmax l a end.
Lemma top_spec : forall f n, (0 < n)%nat -> (exists t, (t < n)%nat /\ f t = top f n) /\ (forall t, (t < n)%nat -> f t <= top f n).
Proof.
  intros f n H. destruct n as [|n]; [lia|]. unfold top. cbn [seq map]. destruct (fold_max (map f (seq 1 n)) (f 0%nat)) as (H1 & H2 & H3). split.
  - destruct H3 as [H3|H3]; [exists 0%nat; split; [lia|symmetry; exact H3]|]. apply in_map_iff in H3. destruct H3 as (t & E & I). apply in_seq in I.
    exists t. split; [lia|exact E].
  - intros [|t] L; [exact H1|]. apply H2. apply in_map. apply in_seq. lia.
Qed.
Lemma row_papr_eq : forall f n, (0 < n)%nat -> row_papr (map f (seq 0 n)) = Ok (ratio (top f n) (sum_to f n / INR n)).
Proof.
  intros f n H. unfold top. rewrite <- add_up_seq. destruct n as [|n]; [lia|]. cbn [seq map]. unfold row_papr. do 2 f_equal. f_equal. f_equal. cbn [length]. rewrite map_length, seq_length. reflexivity.
Qed.
Lemma mapM_ok : forall {A B} (f : A -> result B) (g : A -> B) l, (forall a, In a l -> f a = Ok (g a)) -> mapM f l = Ok (map g l).
Proof. intros A B f g l. induction l as [|a l IH]; intro H; [reflexivity|]. cbn [mapM map]. rewrite (H a (or_introl eq_refl)). cbn [bind]. rewrite IH by (intros; apply H; right; assumption). reflexivity. Qed.
Lemma mapM_comp : forall {A B D} (f : B -> result D) (g : A -> B) l, mapM f (map g l) = mapM (fun a => f (g a)) l.
Proof. intros A B D f g l. induction l as [|a l IH]; [reflexivity|]. cbn [mapM map]. rewrite IH. reflexivity. Qed.
Lemma papr_eq : forall x, sound x -> (0 < num_samples x)%nat ->
  papr_of x = Ok (nan_mean (map (fun s => ratio (top (level x s) (num_samples x)) (stream_energy x s / INR (num_samples x))) (seq 0 (num_streams x)))).
Proof.
  intros x H N. destruct (dense_form_levels x H) as (d & E & I). unfold papr_of. rewrite E. cbn [bind]. unfold papr_artifact. rewrite I, mapM_comp.
  rewrite (mapM_ok _ (fun s => ratio (top (level x s) (num_samples x)) (stream_energy x s / INR (num_samples x)))); [reflexivity|].
  intros s _. apply row_papr_eq. exact N.
Qed.
Lemma energy_positive : forall x s, (exists t, (t < num_samples x)%nat /\ level x s t <> 0) -> 0 < stream_energy x s.
Proof.
  intros x s (t & L & H). pose proof (level_nonneg x s t) as P. apply Rlt_le_trans with (level x s t); [lra|]. apply sum_to_ge_term; [intros; apply level_nonneg|exact L].
Qed.
Lemma audible : forall x s, ~ silent x s -> exists t, (t < num_samples x)%nat /\ level x s t <> 0.
Proof.
  intros x s H. assert (D : forall n, (exists t, (t < n)%nat /\ level x s t <> 0) \/ forall t, (t < n)%nat -> level x s t = 0).
  { induction n as [|n IH]; [right; lia|]. destruct IH as [(t & L & K)|K]; [left; exists t; split; [lia|exact K]|].
    destruct (Req_EM_T (level x s n) 0) as [Z|Z]; [right; intros t L|left; exists n; split; [lia|exact Z]].
    destruct (Nat.eq_dec t n) as [->|F]; [exact Z|apply K; lia]. }
  destruct (D (num_samples x)) as [K|K]; [exact K|contradiction].
Qed.
(** Ratio of one stream. *)
Definition ratio_of (x : csignal) (s : nat) : R := top (level x s) (num_samples x) / (stream_energy x s / INR (num_samples x)).
Lemma papr_value : forall x, sound x -> (0 < num_samples x)%nat -> (0 < num_streams x)%nat -> (forall s, (s < num_streams x)%nat -> ~ silent x s) ->
  papr_of x = Ok (Some (sum_to (ratio_of x) (num_streams x) / INR (num_streams x))).
Proof.
  intros x H N M A. rewrite (papr_eq x H N). do 2 f_equal.
  rewrite (map_ext_in _ (fun s => Some (ratio_of x s))).
  - unfold nan_mean. rewrite nan_sum_some, map_length, seq_length, add_up_seq. rewrite ratio_some; [reflexivity|apply Rgt_not_eq; apply INR_pos; exact M].
  - intros s I. apply in_seq in I. apply ratio_some. apply Rgt_not_eq. apply Rdiv_lt_0_compat; [|apply INR_pos; exact N]. apply energy_positive. apply audible. apply A. lia.
Qed.
Lemma ratio_bounds : forall x s, (0 < num_samples x)%nat -> ~ silent x s ->
  1 <= ratio_of x s <= INR (num_samples x) /\
  (ratio_of x s = 1 <-> forall t u, (t < num_samples x)%nat -> (u < num_samples x)%nat -> level x s t = level x s u) /\
  (ratio_of x s = INR (num_samples x) <-> exists t, (t < num_samples x)%nat /\ forall u, (u < num_samples x)%nat -> u <> t -> level x s u = 0).
Proof.
  intros x s N A. set (n := num_samples x) in *. pose proof (INR_pos n N) as Pn. pose proof (energy_positive x s (audible x s A)) as Pe.
  destruct (top_spec (level x s) n N) as [(t0 & L0 & T0) T]. set (p := top (level x s) n) in *. set (e := stream_energy x s) in *.
  assert (R0 : ratio_of x s = p * INR n / e) by (unfold ratio_of; fold n p e; field; split; lra).
  assert (Q1 : e <= INR n * p) by (unfold e, stream_energy; fold n; rewrite <- sum_to_const; apply sum_to_le; intros; apply T; assumption).
  assert (Q2 : p <= e) by (rewrite <- T0; apply sum_to_ge_term; [intros; apply level_nonneg|exact L0]).
  assert (E1 : ratio_of x s = 1 <-> e = INR n * p).
  { rewrite R0. split; intro K; [|rewrite K; field; nra]. assert (p * INR n / e * e = 1 * e) by (rewrite K; reflexivity).
    replace (p * INR n / e * e) with (p * INR n) in * by (field; lra). lra. }
  assert (En : ratio_of x s = INR n <-> p = e).
  { rewrite R0. split; intro K; [|rewrite K; field; lra]. assert (p * INR n / e * e = INR n * e) as K1 by (rewrite K; reflexivity).
    replace (p * INR n / e * e) with (INR n * p) in K1 by (field; lra). apply (Rmult_eq_reg_l (INR n)); [exact K1|lra]. }
  split; [split|split].
  - rewrite R0. apply (Rmult_le_reg_r e); [exact Pe|]. replace (p * INR n / e * e) with (INR n * p) by (field; lra). lra.
  - rewrite R0. apply (Rmult_le_reg_r e); [exact Pe|]. replace (p * INR n / e * e) with (INR n * p) by (field; lra). apply Rmult_le_compat_l; [lra|exact Q2].
  - rewrite E1. split.
    + intros K t u Lt Lu. assert (G : forall k, (k < n)%nat -> level x s k = p).
      { apply (sum_to_eq (level x s) (fun _ => p) n T). rewrite sum_to_const. exact K. }
      rewrite (G t Lt), (G u Lu). reflexivity.
    + intro K. unfold e, stream_energy. fold n. rewrite <- sum_to_const. apply sum_to_ext. intros k L. rewrite <- T0. apply K; assumption.
  - rewrite En. split.
    + intro K. exists t0. split; [exact L0|]. intros u Lu D.
      assert (G : forall k, (k < n)%nat -> (if Nat.eq_dec k t0 then level x s k else 0) = level x s k).
      { apply sum_to_eq; [intros k _; destruct (Nat.eq_dec k t0); [lra|apply level_nonneg]|]. transitivity p; [|exact K].
        rewrite <- T0. clear - L0. revert L0. generalize n. induction n0 as [|m IH]; intro L; [lia|]. cbn [sum_to]. destruct (Nat.eq_dec m t0) as [->|F].
        - rewrite (sum_to_ext _ (fun _ => 0)); [rewrite sum_to_0; ring|]. intros k Lk. destruct (Nat.eq_dec k t0); [lia|reflexivity].
        - rewrite IH by lia. ring. }
      specialize (G u Lu). destruct (Nat.eq_dec u t0); [contradiction|]. symmetry. exact G.
    + intros (t & Lt & K). assert (G : e = level x s t).
      { unfold e, stream_energy. fold n. rewrite (sum_to_ext _ (fun k => if Nat.eq_dec k t then level x s k else 0)).
        - clear - Lt. revert Lt. generalize n. induction n0 as [|m IH]; intro L; [lia|]. cbn [sum_to]. destruct (Nat.eq_dec m t) as [->|F].
          + rewrite (sum_to_ext _ (fun _ => 0)); [rewrite sum_to_0; ring|]. intros k Lk. destruct (Nat.eq_dec k t); [lia|reflexivity].
          + rewrite IH by lia. ring.
        - intros k L. destruct (Nat.eq_dec k t) as [->|F]; [reflexivity|apply K; assumption]. }
      pose proof (T t Lt). lra.
Qed.
Lemma top_unique : forall x s p, (0 < num_samples x)%nat -> is_peak x s p -> top (level x s) (num_samples x) = p.
Proof.
  intros x s p N [(t & L & E) B]. destruct (top_spec (level x s) (num_samples x) N) as [(u & Lu & Eu) Bu]. pose proof (Bu t L). pose proof (B u Lu). lra.
Qed.
Lemma top_is_peak : forall x s, (0 < num_samples x)%nat -> is_peak x s (top (level x s) (num_samples x)).
Proof. intros x s N. exact (top_spec (level x s) (num_samples x) N). Qed.

(** ** Extracted signals *)
Lemma ndindex_spec : forall dims c, In c (ndindex dims) <-> Forall2 lt c dims.
Proof.
  induction dims as [|d r IH]; intro c; cbn [ndindex].
  - split; [intros [<-|[]]; constructor|]. intro H. inversion H. left; reflexivity.
  - rewrite in_flat_map. split.
    + intros (i & I & J). apply in_map_iff in J. destruct J as (c' & <- & J). apply in_seq in I. constructor; [lia|apply IH; exact J].
    + intro H. inversion H as [|i ? c' ? L F]; subst. exists i. split; [apply in_seq; lia|apply in_map; apply IH; exact F].
Qed.
Lemma in_grid_spec : forall dims c, in_grid dims c = true <-> Forall2 lt c dims.
Proof.
  intros dims c. unfold in_grid. rewrite existsb_exists, <- ndindex_spec. split.
  - intros (c' & I & E). destruct (coords_dec c c') as [->|]; [exact I|discriminate].
  - intro I. exists c. split; [exact I|]. destruct (coords_dec c c); [reflexivity|contradiction].
Qed.
Lemma assign_shape : forall todo a a', assign_all a todo = Ok a' -> a_signals a' = a_signals a /\ a_streams a' = a_streams a /\ a_samples a' = a_samples a.
Proof.
  induction todo as [|[c [i x]] r IH]; intros a a' H; cbn [assign_all] in H; [injection H as <-; repeat split|].
  destruct (assign a c i x) as [a1|e] eqn:E; cbn [bind] in H; [|discriminate]. apply IH in H. destruct x as [d|bs]; cbn [assign] in E; [|discriminate].
  destruct (negb (i <? a_signals a)); [discriminate|]. destruct ((d_ns d <=? a_streams a) && (length (d_cols d) <=? a_samples a)); [|discriminate].
  injection E as <-. exact H.
Qed.
Lemma assign_entries : forall todo a a', assign_all a todo = Ok a' -> forall c i s t,
  (exists d, In (c, (i, Dense d)) todo /\ (s < d_ns d)%nat /\ (t < length (d_cols d))%nat /\ a_at a' c i s t = entry (nth t (d_cols d) []) s) \/
  (a_at a' c i s t = a_at a c i s t /\ forall d, In (c, (i, Dense d)) todo -> ~ ((s < d_ns d)%nat /\ (t < length (d_cols d))%nat)).
Proof.
  induction todo as [|[c0 [i0 x]] r IH]; intros a a' H c i s t; cbn [assign_all] in H; [injection H as <-; right; split; [reflexivity|intros d []]|].
  destruct (assign a c0 i0 x) as [a1|e] eqn:E; cbn [bind] in H; [|discriminate].
  destruct (IH a1 a' H c i s t) as [(d & I & L1 & L2 & V)|[V F]]; [left; exists d; repeat split; [right|..]; assumption|].
  destruct x as [d0|bs]; cbn [assign] in E; [|discriminate].
  destruct (negb (i0 <? a_signals a)); [discriminate|]. destruct ((d_ns d0 <=? a_streams a) && (length (d_cols d0) <=? a_samples a)); [|discriminate].
  injection E as <-. cbn [a_at] in V.
  destruct (coords_dec c c0) as [Ec|Ec].
  - destruct (Nat.eqb_spec i i0) as [Ei|Ei]; [destruct (Nat.ltb_spec s (d_ns d0)) as [Ls|Ls]; [destruct (Nat.ltb_spec t (length (d_cols d0))) as [Lt|Lt]|]|]; cbn [andb] in V.
    + left. exists d0. subst c0 i0. repeat split; [left; reflexivity|exact Ls|exact Lt|exact V].
    + right. split; [exact V|]. intros d [Q|Q]; [injection Q as _ _ Q; subst d; lia|apply F; exact Q].
    + right. split; [exact V|]. intros d [Q|Q]; [injection Q as _ _ Q; subst d; lia|apply F; exact Q].
    + right. split; [exact V|]. intros d [Q|Q]; [injection Q as _ Q _; congruence|apply F; exact Q].
  - right. split; [exact V|]. intros d [Q|Q]; [injection Q as Q _ _; congruence|apply F; exact Q].
Qed.
Lemma assign_succeeds : forall todo a,
  (forall c i x, In (c, (i, x)) todo -> (exists d, x = Dense d) /\ (i < a_signals a)%nat /\ (num_streams x <= a_streams a)%nat /\ (num_samples x <= a_samples a)%nat) ->
  exists a', assign_all a todo = Ok a'.
Proof.
  induction todo as [|[c [i x]] r IH]; intros a H; cbn [assign_all]; [eexists; reflexivity|].
  destruct (H c i x (or_introl eq_refl)) as ((d & ->) & L1 & L2 & L3). cbn [num_streams num_samples] in L2, L3. cbn [assign].
  destruct (Nat.ltb_spec i (a_signals a)) as [_|Q]; [|lia]. cbn [negb]. destruct (Nat.leb_spec (d_ns d) (a_streams a)) as [_|Q]; [|lia].
  destruct (Nat.leb_spec (length (d_cols d)) (a_samples a)) as [_|Q]; [|lia]. cbn [andb bind]. apply IH. intros c' i' x' I. exact (H c' i' x' (or_intror I)).
Qed.
Lemma assign_sparse : forall todo a c i bs, In (c, (i, Sparse bs)) todo -> exists e, assign_all a todo = Raise e.
Proof.
  induction todo as [|[c0 [i0 x]] r IH]; intros a c i bs H; [destruct H|]. cbn [assign_all]. destruct H as [H|H].
  - injection H as _ _ ->. cbn [assign bind]. eexists; reflexivity.
  - destruct (assign a c0 i0 x) as [a1|e]; cbn [bind]; [apply (IH a1 c i bs H)|eexists; reflexivity].
Qed.
Lemma in_enumerate : forall {X} (l : list X) i x, In (i, x) (enumerate l) <-> nth_error l i = Some x.
Proof.
  intros X l i x. unfold enumerate. split.
  - intro H. apply In_nth with (d := (0%nat, x)) in H. destruct H as (k & L & E). rewrite combine_length, seq_length, Nat.min_id in L.
    rewrite combine_nth in E by apply seq_length. rewrite seq_nth in E by exact L. injection E as E1 E2. cbn in E1. subst i. rewrite <- E2. apply nth_error_nth'. exact L.
  - intro H. assert (L : (i < length l)%nat) by (apply nth_error_Some; congruence). apply (nth_error_nth _ _ x) in H.
    replace (i, x) with (nth i (combine (seq 0 (length l)) l) (0%nat, x)).
    + apply nth_In. rewrite combine_length, seq_length, Nat.min_id. exact L.
    + rewrite combine_nth by apply seq_length. rewrite seq_nth by exact L. rewrite H. reflexivity.
Qed.
Lemma in_todo : forall s c i x, In (c, (i, x)) (flat_map (fun c => map (pair c) (enumerate (s_at s c))) (ndindex (s_dims s))) <->
  Forall2 lt c (s_dims s) /\ nth_error (s_at s c) i = Some x.
Proof.
  intros s c i x. rewrite in_flat_map. split.
  - intros (c' & I & J). apply in_map_iff in J. destruct J as (p & E & J). injection E as -> ->. split; [apply ndindex_spec; exact I|apply in_enumerate; exact J].
  - intros [I J]. exists c. split; [apply ndindex_spec; exact I|]. apply in_map_iff. exists (i, x). split; [reflexivity|apply in_enumerate; exact J].
Qed.
Lemma list_max_ge : forall l n, In n l -> (n <= list_max l)%nat.
Proof. intros l n H. pose proof (proj1 (list_max_le l (list_max l)) (Nat.le_refl _)) as F. rewrite List.Forall_forall in F. apply F. exact H. Qed.
Lemma list_max_in : forall l, l <> [] -> In (list_max l) l.
Proof.
  induction l as [|a l IH]; intro H; [contradiction|]. cbn [list_max fold_right]. fold (list_max l). destruct l as [|b l]; [left; cbn; lia|].
  specialize (IH ltac:(discriminate)). destruct (Nat.max_spec a (list_max (b :: l))) as [[_ E]|[_ E]]; rewrite E; [right; exact IH|left; reflexivity].
Qed.
Lemma maxima : forall s c i x, Forall2 lt c (s_dims s) -> nth_error (s_at s c) i = Some x ->
  (i < max_signals s)%nat /\ (num_streams x <= max_streams s)%nat /\ (num_samples x <= max_samples s)%nat.
Proof.
  intros s c i x G N. assert (Ic : In (s_at s c) (cells s)) by (unfold cells; apply in_map; apply ndindex_spec; exact G).
  assert (Ix : In x (concat (cells s))) by (apply in_concat; exists (s_at s c); split; [exact Ic|eapply nth_error_In; exact N]). repeat split.
  - apply Nat.lt_le_trans with (length (s_at s c)); [apply nth_error_Some; congruence|]. apply list_max_ge. apply in_map. exact Ic.
  - apply list_max_ge. apply (in_map (fun x => num_streams x)). exact Ix.
  - apply list_max_ge. apply (in_map (fun x => num_samples x)). exact Ix.
Qed.
Lemma to_array_spec : forall s, (forall c, Forall2 lt c (s_dims s) -> List.Forall (fun x => exists d, x = Dense d) (s_at s c)) ->
  exists a, to_array s = Ok a /\ a_signals a = max_signals s /\ a_streams a = max_streams s /\ a_samples a = max_samples s /\
  forall c i r t, Forall2 lt c (s_dims s) ->
    a_at a c i r t = match nth_error (s_at s c) i with
                     | Some (Dense d) => if (r <? d_ns d) && (t <? length (d_cols d)) then entry (nth t (d_cols d) []) r else RtoC 0
                     | _ => RtoC 0
                     end.
Proof.
  intros s D. unfold to_array. set (todo := flat_map _ _).
  destruct (assign_succeeds todo (zeros s)) as (a & E).
  { intros c i x I. apply in_todo in I. destruct I as [G N]. split; [|exact (maxima s c i x G N)].
    specialize (D c G). rewrite List.Forall_forall in D. apply D. eapply nth_error_In. exact N. }
  exists a. split; [exact E|]. destruct (assign_shape _ _ _ E) as (S1 & S2 & S3). repeat split; try assumption.
  intros c i r t G. destruct (assign_entries _ _ _ E c i r t) as [(d & I & L1 & L2 & V)|[V F]].
  - apply in_todo in I. destruct I as [_ N]. rewrite N, V. destruct (Nat.ltb_spec r (d_ns d)); [|lia]. destruct (Nat.ltb_spec t (length (d_cols d))); [reflexivity|lia].
  - rewrite V. cbn [zeros a_at]. destruct (nth_error (s_at s c) i) as [[d|bs]|] eqn:N; [|reflexivity..].
    assert (I : In (c, (i, Dense d)) todo) by (apply in_todo; split; assumption). specialize (F d I).
    destruct (Nat.ltb_spec r (d_ns d)); [|reflexivity]. destruct (Nat.ltb_spec t (length (d_cols d))); [|reflexivity]. exfalso. apply F. split; assumption.
Qed.
Lemma to_array_sparse : forall s c i bs, Forall2 lt c (s_dims s) -> nth_error (s_at s c) i = Some (Sparse bs) -> exists e, to_array s = Raise e.
Proof. intros s c i bs G N. unfold to_array. apply (assign_sparse _ _ c i bs). apply in_todo. split; assumption. Qed.
Lemma stash_dims : forall ops dims, s_dims (stash_run dims ops) = dims.
Proof.
  intros ops dims. unfold stash_run. change dims with (s_dims (stash_new dims)) at 2. generalize (stash_new dims). induction ops as [|o r IH]; intro s; [reflexivity|]. cbn [fold_left].
  rewrite IH. unfold stash_add, add_artifact. destruct (length (fst o) <? length (s_dims s)); [reflexivity|]. destruct (in_grid (s_dims s) (fst o)); reflexivity.
Qed.
Lemma stash_contents : forall ops dims c, Forall2 lt c dims -> s_at (stash_run dims ops) c = added_at c ops.
Proof.
  intros ops dims c G. unfold stash_run. assert (K : forall s, s_dims s = dims -> s_at (fold_left stash_add ops s) c = s_at s c ++ added_at c ops).
  { induction ops as [|o r IH]; intros s E; [cbn; rewrite app_nil_r; reflexivity|]. cbn [fold_left].
    rewrite IH.
    2:{ rewrite <- E. unfold stash_add, add_artifact. destruct (length (fst o) <? length (s_dims s)); [reflexivity|]. destruct (in_grid (s_dims s) (fst o)); reflexivity. }
    unfold added_at. cbn [filter]. unfold stash_add, add_artifact. destruct (list_eq_dec Nat.eq_dec (fst o) c) as [Q|Q].
    - rewrite Q, E. pose proof (Forall2_len _ _ _ G) as L. destruct (Nat.ltb_spec (length c) (length dims)) as [W|_]; [lia|].
      rewrite (proj2 (in_grid_spec dims c) G). cbn [s_at]. destruct (coords_dec c c); [|contradiction]. rewrite <- app_assoc. reflexivity.
    - destruct (length (fst o) <? length (s_dims s)); [reflexivity|]. destruct (in_grid (s_dims s) (fst o)); [|reflexivity]. cbn [s_at].
      destruct (coords_dec c (fst o)) as [W|_]; [congruence|reflexivity]. }
  rewrite K by reflexivity. reflexivity.
Qed.

(** ** Histories of evaluators *)
Lemma run_app : forall t a b, run t (a ++ b) = fold_left (step t) b (run t a).
Proof. intros t a b. unfold run. apply fold_left_app. Qed.
Lemma run_kept : forall t ops es i e, nth_error es i = Some e ->
  nth_error (fold_left (step t) ops es) i =
  Some (mkE (e_kind e) (e_dir e) (match latest (e_dir e) ops with Some x => Some x | None => e_signal e end)).
Proof.
  intros t ops. induction ops as [|o r IH]; intros es i e H; cbn [fold_left latest]; [rewrite H; destruct e; reflexivity|].
  destruct o as [k|d x n]; cbn [step].
  - assert (H' : nth_error (match listens t k with Ok d => es ++ [mkE k d None] | Raise _ => es end) i = Some e).
    { destruct (listens t k); [|exact H]. rewrite nth_error_app1; [exact H|]. apply nth_error_Some. congruence. }
    rewrite (IH _ _ _ H'). destruct (latest (e_dir e) r); reflexivity.
  - destruct n; [|rewrite (IH _ _ _ H); destruct (latest (e_dir e) r); reflexivity].
    assert (H' : nth_error (map (hear d x) es) i = Some (hear d x e)) by (rewrite nth_error_map, H; reflexivity).
    rewrite (IH _ _ _ H'). unfold hear. destruct (same_direction (e_dir e) d); cbn [e_kind e_dir e_signal]; destruct (latest (e_dir e) r); reflexivity.
Qed.
Lemma history : forall t k d before after, listens t k = Ok d ->
  nth_error (run t (before ++ Create k :: after)) (length (run t before)) = Some (mkE k d (latest d after)).
Proof.
  intros t k d before after L. rewrite run_app. cbn [fold_left step]. rewrite L.
  rewrite (run_kept t after _ _ (mkE k d None)).
  - cbn [e_kind e_dir e_signal]. destruct (latest d after); reflexivity.
  - rewrite nth_error_app2 by lia. rewrite Nat.sub_diag. reflexivity.
Qed.
