From Coq Require Import List Reals Bool Arith ZArith Lia Lra Sorting.Sorted Permutation.
From Coquelicot Require Import Complex.
From Verif Require Import Base BaseLemmas Cplx Cplx_Proofs Sc_Proofs Sync_Model Sync_Spec.
Import ListNotations.
Local Open Scope nat_scope.

(** ** Maxima *)
Lemma maximum_ge : forall f n k, k <= n -> (f k <= maximum f n)%R.
Proof.
  intros f n. induction n as [|n IH]; intros k H; [replace k with 0 by lia; cbn; lra|]. cbn [maximum]. destruct (Nat.eq_dec k (S n)) as [->|N]; [apply Rmax_r|].
  eapply Rle_trans; [apply IH; lia|apply Rmax_l].
Qed.
Lemma maximum_hit : forall f n, exists k, k <= n /\ maximum f n = f k.
Proof.
  intros f n. induction n as [|n [k [K E]]]; [exists 0; auto|]. cbn [maximum]. destruct (Rle_dec (maximum f n) (f (S n))) as [L|L].
  - exists (S n). split; [lia|]. apply Rmax_right. exact L.
  - exists k. split; [lia|]. rewrite Rmax_left by lra. exact E.
Qed.
Lemma maximum_unique : forall f n k, k <= n -> (forall j, j <= n -> (f j <= f k)%R) -> maximum f n = f k.
Proof. intros f n k K H. destruct (maximum_hit f n) as [j [J E]]. assert (A := maximum_ge f n k K). specialize (H j J). lra. Qed.
Lemma maximum_scale : forall f g a n, (0 <= a)%R -> (forall k, g k = (a * f k)%R) -> maximum g n = (a * maximum f n)%R.
Proof.
  intros f g a n A H. induction n as [|n IH]; [apply H|]. cbn [maximum]. rewrite IH, H. apply RmaxRmult. exact A.
Qed.

(** ** Peaks *)
Lemma ahead_plateau : forall f i room j k, j <= k -> k < ahead f i j room -> f k = f i.
Proof.
  intros f i room. induction room as [|r IH]; intros j k A B; cbn [ahead] in B; [lia|]. destruct (Req_EM_T (f j) (f i)) as [E|E]; [|lia].
  destruct (Nat.eq_dec k j) as [->|N]; [exact E|]. apply (IH (S j)); [lia|exact B].
Qed.
Lemma ahead_ge : forall f i room j, j <= ahead f i j room.
Proof. intros f i room. induction room as [|r IH]; intro j; cbn [ahead]; [lia|]. destruct (Req_EM_T (f j) (f i)); [|lia]. specialize (IH (S j)). lia. Qed.
Lemma ahead_le : forall f i room j, ahead f i j room <= j + room.
Proof. intros f i room. induction room as [|r IH]; intro j; cbn [ahead]; [lia|]. destruct (Req_EM_T (f j) (f i)); [|lia]. specialize (IH (S j)). lia. Qed.
Definition plateau_end (f : nat -> R) (n i : nat) : nat := ahead f i (S i) (n - 1 - S i).
Lemma peak_value : forall f n i p, In p (peak_at f n i) -> f p = f i /\ i <= p /\ p < plateau_end f n i /\ (f (i - 1)%nat < f i)%R.
Proof.
  intros f n i p. unfold peak_at. destruct (Rlt_dec (f (i - 1)) (f i)) as [A|A]; [|intros []]. fold (plateau_end f n i). set (j := plateau_end f n i). assert (J := ahead_ge f i (n - 1 - S i) (S i)). fold (plateau_end f n i) in J. fold j in J. cbv zeta.
  destruct (Rlt_dec (f j) (f i)) as [B|B]; [|intros []]. intros [E|[]]. subst p. set (m := (i + j - 1) / 2).
  assert (M1 : i <= m) by (unfold m; apply Nat.div_le_lower_bound; lia). assert (M2 : m < j) by (unfold m; apply Nat.div_lt_upper_bound; lia).
  split; [|auto]. destruct (Nat.eq_dec m i) as [->|N]; [reflexivity|]. apply (ahead_plateau f i (n - 1 - S i) (S i)); [lia|exact M2].
Qed.
Lemma peak_bound : forall f n i p, In p (peak_at f n i) -> i < n - 1 -> p < n - 1.
Proof. intros f n i p H L. apply peak_value in H. destruct H as [_ [_ [H _]]]. assert (A := ahead_le f i (n - 1 - S i) (S i)). unfold plateau_end in H. lia. Qed.
Lemma peaks_ordered : forall f n i i' p p', i < i' -> In p (peak_at f n i) -> In p' (peak_at f n i') -> p < p'.
Proof.
  intros f n i i' p p' L H H'. apply peak_value in H. apply peak_value in H'. destruct H as [_ [_ [H _]]]. destruct H' as [_ [H' [_ R]]].
  destruct (Nat.le_gt_cases (plateau_end f n i) i') as [G|G]; [lia|]. exfalso.
  assert (E1 : f i' = f i) by (apply (ahead_plateau f i (n - 1 - S i) (S i)); [lia|exact G]).
  assert (E2 : f (i' - 1) = f i) by (destruct (Nat.eq_dec (i' - 1) i) as [->|N]; [reflexivity|]; apply (ahead_plateau f i (n - 1 - S i) (S i)); [lia|unfold plateau_end in G; lia]).
  rewrite E1, E2 in R. lra.
Qed.
Lemma peak_single : forall f n i, peak_at f n i = [] \/ exists p, peak_at f n i = [p].
Proof. intros f n i. unfold peak_at. destruct (Rlt_dec _ _); [|auto]. cbv zeta. destruct (Rlt_dec _ _); [right; eexists; reflexivity|auto]. Qed.
Lemma peaks_sorted : forall f n m s, StronglySorted lt (flat_map (peak_at f n) (seq s m)).
Proof.
  intros f n m. induction m as [|m IH]; intro s; [constructor|]. cbn [seq flat_map]. destruct (peak_single f n s) as [E|[p E]]; rewrite E; cbn [app]; [apply IH|].
  constructor; [apply IH|]. apply Forall_forall. intros q Q. apply in_flat_map in Q. destruct Q as [i [I Q]]. apply in_seq in I. apply (peaks_ordered f n s i); [lia|rewrite E; left; reflexivity|exact Q].
Qed.

(** ** Selection by distance *)
Lemma insert_perm : forall f p l, Permutation (insert f p l) (p :: l).
Proof.
  intros f p l. induction l as [|q r IH]; cbn [insert]; [reflexivity|]. destruct (Rle_dec (f q) (f p)); [reflexivity|]. rewrite IH. apply perm_swap.
Qed.
Lemma by_height_perm : forall f l, Permutation (by_height f l) l.
Proof.
  intros f l. unfold by_height. assert (G : forall l acc, Permutation (fold_left (fun acc p => insert f p acc) l acc) (acc ++ l)).
  { clear l. intro l. induction l as [|p r IH]; intro acc; cbn [fold_left]; [rewrite app_nil_r; reflexivity|]. rewrite IH, insert_perm. cbn [app]. apply Permutation_middle. }
  rewrite G. reflexivity.
Qed.
Lemma close_false : forall d p q, close d p q = false <-> d <= p - q + (q - p).
Proof. intros d p q. unfold close. rewrite Nat.ltb_ge. reflexivity. Qed.
Definition apart (d : nat) (l : list nat) : Prop := forall p q, In p l -> In q l -> p <> q -> d <= p - q + (q - p).
Lemma keep_grows : forall d l acc p, In p acc -> In p (fold_left (fun kept p => if existsb (close d p) kept then kept else p :: kept) l acc).
Proof. intros d l. induction l as [|x r IH]; intros acc p H; cbn [fold_left]; [exact H|]. apply IH. destruct (existsb (close d x) acc); [exact H|right; exact H]. Qed.
Lemma keep_apart : forall d l, apart d (keep d l).
Proof.
  intros d l. unfold keep. assert (G : forall l acc, apart d acc -> apart d (fold_left (fun kept p => if existsb (close d p) kept then kept else p :: kept) l acc)).
  { clear l. intro l. induction l as [|x r IH]; intros acc H; cbn [fold_left]; [exact H|]. apply IH. destruct (existsb (close d x) acc) eqn:E; [exact H|].
    assert (N : forall q, In q acc -> d <= x - q + (q - x)).
    { intros q Q. apply close_false. destruct (close d x q) eqn:F; [|reflexivity]. rewrite <- E. symmetry. apply existsb_exists. exists q. auto. }
    intros p q [P|P] [Q|Q] D; subst; [lia|apply N; exact Q|specialize (N p P); lia|apply H; assumption]. }
  apply G. intros p q [].
Qed.
Lemma keep_all : forall d l, NoDup l -> apart d l -> forall p, In p l -> In p (keep d l).
Proof.
  intros d l. unfold keep. assert (G : forall l acc, NoDup (acc ++ l) -> apart d (acc ++ l) -> forall p, In p (acc ++ l) -> In p (fold_left (fun kept p => if existsb (close d p) kept then kept else p :: kept) l acc)).
  { clear l. intro l. induction l as [|x r IH]; intros acc N A p P; cbn [fold_left]; [rewrite app_nil_r in P; exact P|].
    assert (E : existsb (close d x) acc = false).
    { destruct (existsb (close d x) acc) eqn:E; [|reflexivity]. apply existsb_exists in E. destruct E as [q [Q E]]. exfalso.
      assert (F : close d x q = false). { apply close_false. apply A; [apply in_or_app; right; left; reflexivity|apply in_or_app; left; exact Q|]. intros ->. apply NoDup_remove_2 in N. apply N. apply in_or_app. left. exact Q. }
      congruence. }
    rewrite E. assert (PP : Permutation (acc ++ x :: r) ((x :: acc) ++ r)) by (symmetry; apply Permutation_middle).
    apply IH.
    - eapply Permutation_NoDup; eassumption.
    - intros a b Ia Ib. apply A; (eapply Permutation_in; [symmetry; exact PP|assumption]).
    - eapply Permutation_in; eassumption. }
  intros N A. apply (G l []); assumption.
Qed.

(** ** Peak search *)
Definition tall (f : nat -> R) (h : R) (p : nat) : bool := if Rle_dec h (f p) then true else false.
Lemma tall_iff : forall f h p, tall f h p = true <-> (h <= f p)%R.
Proof. intros f h p. unfold tall. destruct (Rle_dec h (f p)); split; intro; auto; try discriminate; contradiction. Qed.
Lemma find_peaks_ok : forall f n h d l, find_peaks f n h d = Ok l -> StronglySorted lt l /\ apart d l /\ (forall p, In p l -> (h <= f p)%R /\ 0 < p < n - 1) /\ 1 <= d.
Proof.
  intros f n h d l. unfold find_peaks. destruct (d <? 1) eqn:D; [discriminate|]. apply Nat.ltb_ge in D. intro E. injection E as <-. split; [|split; [|split; [|exact D]]].
  - apply sorted_filter, sorted_filter. apply peaks_sorted.
  - intros p q P Q N. apply filter_In in P. apply filter_In in Q. destruct P as [_ P]. destruct Q as [_ Q]. apply existsb_exists in P. apply existsb_exists in Q.
    destruct P as [p' [P E]]. destruct Q as [q' [Q E']]. apply Nat.eqb_eq in E. apply Nat.eqb_eq in E'. subst p' q'. exact (keep_apart _ _ p q P Q N).
  - intros p P. apply filter_In in P. destruct P as [P _]. apply filter_In in P. destruct P as [P T]. split; [apply tall_iff; exact T|].
    unfold local_maxima in P. apply in_flat_map in P. destruct P as [i [I P]]. apply in_seq in I. assert (B := peak_bound f n i p P). apply peak_value in P. lia.
Qed.
Lemma filter_flat_map : forall (A B : Type) (g : B -> bool) (h : A -> list B) l, filter g (flat_map h l) = flat_map (fun x => filter g (h x)) l.
Proof. intros A B g h l. induction l as [|x r IH]; [reflexivity|]. cbn [flat_map]. rewrite filter_app, IH. reflexivity. Qed.
Lemma flat_map_ext_in : forall (A B : Type) (g h : A -> list B) l, (forall x, In x l -> g x = h x) -> flat_map g l = flat_map h l.
Proof. intros A B g h l. induction l as [|x r IH]; intro H; [reflexivity|]. cbn [flat_map]. rewrite H by (left; reflexivity). rewrite IH; [reflexivity|]. intros y Y. apply H. right. exact Y. Qed.
Lemma flat_map_filter : forall (A : Type) (b : A -> bool) l, flat_map (fun x => if b x then [x] else []) l = filter b l.
Proof. intros A b l. induction l as [|x r IH]; [reflexivity|]. cbn [flat_map filter]. rewrite IH. destruct (b x); reflexivity. Qed.
(** Entries reaching the height at interior positions at least two and [d] apart are exactly the peaks found *)
Lemma find_peaks_spaced : forall f n h d l, 2 <= d -> StronglySorted lt l -> apart d l -> (forall k, k < n -> (h <= f k)%R <-> In k l) -> (forall k, In k l -> 0 < k < n - 1) ->
  find_peaks f n h d = Ok l.
Proof.
  intros f n h d l D So A T I. unfold find_peaks. destruct (d <? 1) eqn:D1; [apply Nat.ltb_lt in D1; lia|].
  assert (H : filter (tall f h) (local_maxima f n) = l).
  { unfold local_maxima. rewrite filter_flat_map. rewrite (flat_map_ext_in _ _ _ (fun i => if tall f h i then [i] else [])).
    - rewrite flat_map_filter. apply sorted_ext; [apply sorted_filter, sorted_seq|exact So|]. intro k. rewrite filter_In, in_seq, tall_iff. split.
      + intros [K1 K2]. apply T; [lia|exact K2].
      + intro K. assert (B := I k K). split; [lia|]. apply T; [lia|exact K].
    - intros i Hi. apply in_seq in Hi. destruct (tall f h i) eqn:E.
      + assert (E' := E). apply tall_iff in E'. apply T in E'; [|lia]. assert (B := I i E').
        assert (N1 : (f (i - 1)%nat < f i)%R).
        { apply tall_iff in E. apply Rlt_le_trans with h; [|exact E]. apply Rnot_le_lt. intro Q. apply T in Q; [|lia]. assert (W := A (i - 1) i Q E'). lia. }
        assert (N2 : (f (S i) < f i)%R).
        { apply tall_iff in E. apply Rlt_le_trans with h; [|exact E]. apply Rnot_le_lt. intro Q. apply T in Q; [|lia]. assert (W := A (S i) i Q E'). lia. }
        assert (J : ahead f i (S i) (n - 1 - S i) = S i). { destruct (n - 1 - S i); [reflexivity|]. cbn [ahead]. destruct (Req_EM_T (f (S i)) (f i)); [lra|reflexivity]. }
        unfold peak_at. rewrite J. cbv zeta. destruct (Rlt_dec (f (i - 1)) (f i)); [|contradiction]. destruct (Rlt_dec (f (S i)) (f i)); [|contradiction].
        replace ((i + S i - 1) / 2) with i by (replace (i + S i - 1) with (i * 2) by lia; rewrite Nat.div_mul by lia; reflexivity). cbn [filter]. rewrite E. reflexivity.
      + destruct (peak_single f n i) as [P|[p P]]; rewrite P; [reflexivity|]. cbn [filter].
        assert (V := peak_value f n i p). rewrite P in V. destruct (V (or_introl eq_refl)) as [V1 _]. unfold tall in *. rewrite V1. rewrite E. reflexivity. }
  change (Ok (filter (fun p => existsb (Nat.eqb p) (keep d (by_height f (filter (tall f h) (local_maxima f n))))) (filter (tall f h) (local_maxima f n))) = Ok l).
  rewrite H. f_equal. apply filter_all. intros p P. apply existsb_exists. exists p. split; [|apply Nat.eqb_refl].
  assert (PP := by_height_perm f l). apply keep_all.
  - eapply Permutation_NoDup; [symmetry; exact PP|]. apply sorted_nodup. exact So.
  - intros a b Ia Ib. apply A; (eapply Permutation_in; [exact PP|assumption]).
  - eapply Permutation_in; [symmetry; exact PP|exact P].
Qed.

(** ** Correlations *)
Lemma correlation_nonneg : forall streams p k, (0 <= correlation streams p k)%R.
Proof. intros streams p k. unfold correlation. induction streams as [|s r IH]; cbn [map fold_right]; [lra|]. assert (H := Cmod_ge_0 (correlate s p k)). lra. Qed.
Lemma at0_scaled : forall g l i, at0 (map (Cmult g) l) i = (g * at0 l i)%C.
Proof.
  intros g l. unfold at0. induction l as [|x r IH]; intro i; destruct i; cbn [map nth]; try ring; try reflexivity. apply IH.
Qed.
Lemma correlate_amplified : forall g s p k, correlate (map (Cmult g) s) p k = (g * correlate s p k)%C.
Proof.
  intros g s p k. unfold correlate. rewrite map_length, <- csum_scal. apply csum_ext. intros i _. destruct (k <=? i + (length p - 1)); [rewrite at0_scaled|]; ring.
Qed.
Lemma correlation_amplified : forall g streams p k, correlation (amplified g streams) p k = (Cmod g * correlation streams p k)%R.
Proof.
  intros g streams p k. unfold correlation, amplified. induction streams as [|s r IH]; cbn [map fold_right]; [lra|]. rewrite IH, correlate_amplified, Cmod_mult. lra.
Qed.
Lemma at0_out : forall (p : list C) i, length p <= i -> at0 p i = RtoC 0.
Proof. intros p i H. unfold at0. apply nth_overflow. exact H. Qed.
Lemma correlate_isolated : forall p n d g s k, isolated p n d g s -> d + length p <= n -> 1 <= length p ->
  correlate s p k = (g * auto p (Z.of_nat k - Z.of_nat (d + (length p - 1))))%C.
Proof.
  intros p n d g s k [Hl Hs] Hn Hp. unfold correlate. rewrite Hl. replace n with (d + (length p + (n - d - length p))) by lia.
  rewrite csum_app, csum_app.
  rewrite (csum_ext _ (fun _ => RtoC 0) d).
  2:{ intros i Hi. rewrite Hs. destruct (Nat.leb_spec d i); [lia|]. destruct (k <=? i + (length p - 1)); ring. }
  rewrite (csum_ext _ (fun _ => RtoC 0) (n - d - length p)).
  2:{ intros i Hi. rewrite Hs. destruct (Nat.leb_spec d (d + (length p + i))); [|lia]. rewrite (at0_out p) by lia. destruct (k <=? _); ring. }
  rewrite !csum_0. unfold auto. rewrite <- csum_scal.
  rewrite (csum_ext _ (fun i => g * (at0 p i * conj (atz p (Z.of_nat i - (Z.of_nat k - Z.of_nat (d + (length p - 1)))))))%C (length p)); [ring|].
  intros i Hi. rewrite Hs. destruct (Nat.leb_spec d (d + i)) as [_|?]; [|lia]. replace (d + i - d) with i by lia. unfold atz.
  destruct (Nat.leb_spec k (d + i + (length p - 1))) as [L|L]; destruct (Z.ltb_spec (Z.of_nat i - (Z.of_nat k - Z.of_nat (d + (length p - 1)))) 0) as [M|M]; try lia.
  - replace (Z.to_nat (Z.of_nat i - (Z.of_nat k - Z.of_nat (d + (length p - 1))))) with (d + i + (length p - 1) - k) by lia. ring.
  - rewrite conj_R. ring.
Qed.
Definition strength (gains : list C) : R := fold_right Rplus 0%R (map Cmod gains).
Lemma strength_pos : forall gains, Exists (fun g => g <> RtoC 0) gains -> (0 < strength gains)%R.
Proof.
  intros gains H. unfold strength. induction H as [g r H|g r H IH]; cbn [map fold_right].
  - apply Cmod_gt_0 in H. assert (A : (0 <= fold_right Rplus 0 (map Cmod r))%R). { induction r as [|x r IH]; cbn [map fold_right]; [lra|]. assert (B := Cmod_ge_0 x). lra. } lra.
  - assert (B := Cmod_ge_0 g). lra.
Qed.
Lemma correlation_isolated : forall p n d gains streams k, Forall2 (isolated p n d) gains streams -> d + length p <= n -> 1 <= length p ->
  correlation streams p k = (strength gains * Cmod (auto p (Z.of_nat k - Z.of_nat (d + (length p - 1)))))%R.
Proof.
  intros p n d gains streams k H Hn Hp. unfold correlation, strength. induction H as [|g s gr sr H HH IH]; cbn [map fold_right]; [lra|]. rewrite IH, (correlate_isolated p n d g s k H Hn Hp), Cmod_mult. lra.
Qed.
Lemma correlate_one : forall s k, k < length s -> correlate s [RtoC 1] k = at0 s k.
Proof.
  intros s k H. unfold correlate. cbn [length]. replace (1 - 1) with 0 by lia. rewrite (csum_ext _ (fun i => if i =? k then at0 s i else RtoC 0)).
  - rewrite csum_delta by exact H. reflexivity.
  - intros i _. rewrite Nat.add_0_r. destruct (Nat.eqb_spec i k) as [->|N]; [rewrite Nat.leb_refl, Nat.sub_diag; cbn; rewrite conj_R; ring|]. destruct (Nat.leb_spec k i) as [L|L]; [|reflexivity].
    rewrite (at0_out [RtoC 1]) by (cbn; lia). rewrite conj_R. ring.
Qed.

(** ** Synchronization *)
Lemma correct_range : forall n p frame k, frame <= n -> (0 <= correct n p frame k <= Z.of_nat n - Z.of_nat frame)%Z.
Proof.
  intros n p frame k H. unfold correct. destruct (Z.ltb_spec (Z.of_nat k - (Z.of_nat p - 1)) 0) as [A|A].
  - destruct (Z.ltb_spec (Z.of_nat n - Z.of_nat frame) 0); lia.
  - destruct (Z.ltb_spec (Z.of_nat n - Z.of_nat frame) (Z.of_nat k - (Z.of_nat p - 1))); lia.
Qed.
Lemma correct_short : forall n p frame k, n < frame -> correct n p frame k = (Z.of_nat frame - Z.of_nat n)%Z.
Proof.
  intros n p frame k H. unfold correct. destruct (Z.ltb_spec (Z.of_nat k - (Z.of_nat p - 1)) 0) as [A|A].
  - destruct (Z.ltb_spec (Z.of_nat n - Z.of_nat frame) 0); lia.
  - destruct (Z.ltb_spec (Z.of_nat n - Z.of_nat frame) (Z.of_nat k - (Z.of_nat p - 1))); lia.
Qed.
Lemma correct_fits : forall n p frame d, 1 <= p -> d + frame <= n -> correct n p frame (d + (p - 1)) = Z.of_nat d.
Proof.
  intros n p frame d H1 H2. unfold correct. replace (Z.of_nat (d + (p - 1)) - (Z.of_nat p - 1))%Z with (Z.of_nat d) by lia.
  destruct (Z.ltb_spec (Z.of_nat d) 0); [lia|]. destruct (Z.ltb_spec (Z.of_nat n - Z.of_nat frame) (Z.of_nat d)); lia.
Qed.
Lemma correct_inside : forall n p frame k, frame <= n -> (correct n p frame k < Z.of_nat n - Z.of_nat frame)%Z -> (Z.of_nat k - (Z.of_nat p - 1) <= correct n p frame k)%Z.
Proof.
  intros n p frame k H. unfold correct. destruct (Z.ltb_spec (Z.of_nat k - (Z.of_nat p - 1)) 0) as [A|A].
  - destruct (Z.ltb_spec (Z.of_nat n - Z.of_nat frame) 0); lia.
  - destruct (Z.ltb_spec (Z.of_nat n - Z.of_nat frame) (Z.of_nat k - (Z.of_nat p - 1))); lia.
Qed.
Lemma correct_positive : forall n p frame k, frame <= n -> (0 < correct n p frame k)%Z -> (correct n p frame k <= Z.of_nat k - (Z.of_nat p - 1))%Z.
Proof.
  intros n p frame k H. unfold correct. destruct (Z.ltb_spec (Z.of_nat k - (Z.of_nat p - 1)) 0) as [A|A].
  - destruct (Z.ltb_spec (Z.of_nat n - Z.of_nat frame) 0); lia.
  - destruct (Z.ltb_spec (Z.of_nat n - Z.of_nat frame) (Z.of_nat k - (Z.of_nat p - 1))); lia.
Qed.
Lemma synchronize_inv : forall s streams n p frame l, synchronize s streams n p frame = Ok l -> l = [] \/
  exists peaks, l = map (correct n (length p) frame) peaks /\ 1 <= length p /\ best streams n p <> 0%R /\
    find_peaks (fun k => (correlation streams p k / best streams n p)%R) (length p + n - 1) (9 / 10) (8 * frame / 10) = Ok peaks.
Proof.
  intros s streams n p frame l. unfold synchronize. destruct (length streams * n =? 0); [intro E; injection E as <-; auto|]. destruct (Nat.eqb_spec (length p) 0) as [P|P]; [discriminate|].
  unfold detected. fold (best streams n p). cbv zeta. destruct (8 * frame / 10 <? 1); [discriminate|]. destruct (Req_EM_T (best streams n p) 0) as [Z|Z]; cbn [bind].
  - intro E; injection E as <-. auto.
  - destruct (find_peaks _ _ _ _) as [peaks|e] eqn:F; cbn [bind]; [|discriminate]. intro E. right. exists peaks. split; [congruence|]. split; [lia|]. auto.
Qed.
Lemma sorted_nth : forall l i j a b, StronglySorted lt l -> i < j -> nth_error l i = Some a -> nth_error l j = Some b -> a < b.
Proof.
  intros l i j a b So. revert i j. induction So as [|x l So IH F]; intros i j L A B; [destruct i; discriminate|]. destruct j as [|j]; [lia|]. destruct i as [|i].
  - cbn in A. injection A as ->. rewrite Forall_forall in F. apply F. cbn in B. eapply nth_error_In. exact B.
  - cbn in A, B. apply (IH i j); [lia|assumption|assumption].
Qed.
