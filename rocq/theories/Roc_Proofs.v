(** Lemmas about evaluators of radar detections. *)
From Coq Require Import List Reals ZArith Lia Lra Bool Arith Permutation.
From Verif Require Import Base BaseLemmas Rot_Model Rot_Proofs Roc_Model Roc_Spec.
Import ListNotations.
Open Scope R_scope.

Lemma fold_max_spec : forall r x, (x <= fold_left Rmax r x) /\ (forall y, In y r -> y <= fold_left Rmax r x) /\ (fold_left Rmax r x = x \/ In (fold_left Rmax r x) r).
Proof.
  induction r as [ | y r IH]; intros x; cbn [fold_left]; [ split; [ lra | split; [ intros y [] | left; reflexivity ] ] | ].
  destruct (IH (Rmax x y)) as [A [B D]]. assert (P := Rmax_l x y). assert (Q := Rmax_r x y). split; [ lra | ]. split; [ intros z [<- | Hz]; [ lra | apply B; exact Hz ] | ].
  destruct D as [D | D]; [ | right; right; exact D ]. rewrite D. unfold Rmax. destruct (Rle_dec x y); [ right; left; reflexivity | left; reflexivity ].
Qed.
Lemma fold_min_spec : forall r x, (fold_left Rmin r x <= x) /\ (forall y, In y r -> fold_left Rmin r x <= y) /\ (fold_left Rmin r x = x \/ In (fold_left Rmin r x) r).
Proof.
  induction r as [ | y r IH]; intros x; cbn [fold_left]; [ split; [ lra | split; [ intros y [] | left; reflexivity ] ] | ].
  destruct (IH (Rmin x y)) as [A [B D]]. assert (P := Rmin_l x y). assert (Q := Rmin_r x y). split; [ lra | ]. split; [ intros z [<- | Hz]; [ lra | apply B; exact Hz ] | ].
  destruct D as [D | D]; [ | right; right; exact D ]. rewrite D. unfold Rmin. destruct (Rle_dec x y); [ left; reflexivity | right; left; reflexivity ].
Qed.
Lemma maximum_spec : forall l, l <> [] -> exists m, maximum l = Ok m /\ is_largest l m.
Proof.
  intros [ | x r] H; [ congruence | ]. cbn [maximum]. eexists. split; [ reflexivity | ]. destruct (fold_max_spec r x) as [A [B D]]. split.
  - destruct D as [D | D]; [ left; symmetry; exact D | right; exact D ].
  - intros y [<- | Hy]; [ exact A | apply B; exact Hy ].
Qed.
Lemma minimum_spec : forall l, l <> [] -> exists m, minimum l = Ok m /\ is_smallest l m.
Proof.
  intros [ | x r] H; [ congruence | ]. cbn [minimum]. eexists. split; [ reflexivity | ]. destruct (fold_min_spec r x) as [A [B D]]. split.
  - destruct D as [D | D]; [ left; symmetry; exact D | right; exact D ].
  - intros y [<- | Hy]; [ exact A | apply B; exact Hy ].
Qed.
Lemma in_values : forall l x, In x (values l) <-> In x (all_values l).
Proof.
  intros l x. unfold values, all_values. rewrite in_flat_map, in_app_iff, !in_map_iff. split.
  - intros [a [Ha [<- | [<- | []]]]]; [ left | right ]; exists a; split; auto.
  - intros [[a [<- Ha]] | [a [<- Ha]]]; exists a; (split; [ exact Ha | ]); [ left | right; left ]; reflexivity.
Qed.
Lemma values_nonempty : forall l, l <> [] -> values l <> [].
Proof. intros [ | a l] H; [ congruence | discriminate ]. Qed.
Lemma filter_reaching : forall (v : R * R -> R) t l, length (filter (fun a => at_least t (v a)) l) = reaching v t l.
Proof.
  intros v t l. induction l as [ | a l IH]; [ reflexivity | ]. cbn [filter reaching]. unfold at_least at 1. destruct (Rle_dec t (v a)); cbn [length]; rewrite IH; reflexivity.
Qed.
Lemma curve_defined : forall l n, l <> [] -> exists lo hi, is_smallest (all_values l) lo /\ is_largest (all_values l) hi /\
  curve l n = Some (map (fun i => let t := threshold lo hi n i in (INR (reaching snd t l) / INR (length l), INR (reaching fst t l) / INR (length l))) (seq 0 n)).
Proof.
  intros l n H. destruct (minimum_spec (values l) (values_nonempty l H)) as [lo [E1 [A1 B1]]]. destruct (maximum_spec (values l) (values_nonempty l H)) as [hi [E2 [A2 B2]]].
  exists lo, hi. split; [ split; [ apply in_values; exact A1 | intros x Hx; apply B1; apply in_values; exact Hx ] | ].
  split; [ split; [ apply in_values; exact A2 | intros x Hx; apply B2; apply in_values; exact Hx ] | ].
  unfold curve. rewrite E1, E2. unfold linspace. rewrite map_map. f_equal. apply map_ext. intros i. cbv zeta. unfold fraction, threshold. rewrite !filter_reaching. reflexivity.
Qed.
Lemma smallest_unique : forall l l' a b, (forall x, In x l <-> In x l') -> is_smallest l a -> is_smallest l' b -> a = b.
Proof. intros l l' a b H [A1 A2] [B1 B2]. assert (a <= b) by (apply A2; apply H; exact B1). assert (b <= a) by (apply B2; apply H; exact A1). lra. Qed.
Lemma largest_unique : forall l l' a b, (forall x, In x l <-> In x l') -> is_largest l a -> is_largest l' b -> a = b.
Proof. intros l l' a b H [A1 A2] [B1 B2]. assert (b <= a) by (apply A2; apply H; exact B1). assert (a <= b) by (apply B2; apply H; exact A1). lra. Qed.
Lemma reaching_le : forall {A} (v : A -> R) t l, (reaching v t l <= length l)%nat.
Proof. intros A v t l. induction l as [ | a l IH]; [ cbn; lia | ]. cbn [reaching length]. destruct (Rle_dec t (v a)); lia. Qed.
Lemma reaching_mono : forall {A} (v : A -> R) t t' l, t <= t' -> (reaching v t' l <= reaching v t l)%nat.
Proof. intros A v t t' l H. induction l as [ | a l IH]; [ cbn; lia | ]. cbn [reaching]. destruct (Rle_dec t' (v a)), (Rle_dec t (v a)); try lia; lra. Qed.
Lemma reaching_all : forall {A} (v : A -> R) t l, (forall a, In a l -> t <= v a) -> reaching v t l = length l.
Proof. intros A v t l H. induction l as [ | a l IH]; [ reflexivity | ]. cbn [reaching length]. destruct (Rle_dec t (v a)) as [ | N]; [ rewrite IH; [ reflexivity | intros b Hb; apply H; right; exact Hb ] | exfalso; apply N; apply H; left; reflexivity ]. Qed.
Lemma reaching_none : forall {A} (v : A -> R) t l, (forall a, In a l -> v a < t) -> reaching v t l = 0%nat.
Proof. intros A v t l H. induction l as [ | a l IH]; [ reflexivity | ]. cbn [reaching]. destruct (Rle_dec t (v a)) as [N | ]; [ exfalso; specialize (H a (or_introl eq_refl)); lra | apply IH; intros b Hb; apply H; right; exact Hb ]. Qed.
Lemma reaching_some : forall {A} (v : A -> R) t l a, In a l -> t <= v a -> (0 < reaching v t l)%nat.
Proof. intros A v t l a. induction l as [ | b l IH]; intros H K; [ destruct H | ]. cbn [reaching]. destruct H as [-> | H]; [ destruct (Rle_dec t (v a)); [ lia | contradiction ] | specialize (IH H K); lia ]. Qed.
Lemma reaching_dominated : forall {A} (v w : A -> R) t l, (forall a, In a l -> v a <= w a) -> (reaching v t l <= reaching w t l)%nat.
Proof.
  intros A v w t l H. induction l as [ | a l IH]; [ cbn; lia | ]. cbn [reaching]. specialize (IH (fun b Hb => H b (or_intror Hb))). assert (K := H a (or_introl eq_refl)).
  destruct (Rle_dec t (v a)), (Rle_dec t (w a)); try lia; lra.
Qed.
Lemma reaching_perm : forall {A} (v : A -> R) t l l', Permutation l l' -> reaching v t l = reaching v t l'.
Proof. intros A v t l l' H. induction H as [ | a l l' H IH | a b l | l l' l'' H1 IH1 H2 IH2]; cbn [reaching]; [ reflexivity | rewrite IH; reflexivity | lia | rewrite IH1; exact IH2 ]. Qed.
Lemma reaching_affine : forall (v : R * R -> R) (g : R * R -> R * R) k c t l, 0 < k -> (forall a, v (g a) = k * v a + c) -> reaching v (k * t + c) (map g l) = reaching v t l.
Proof.
  intros v g k c t l Hk Hg. induction l as [ | a l IH]; [ reflexivity | ]. cbn [map reaching]. rewrite IH, Hg.
  destruct (Rle_dec (k * t + c) (k * v a + c)), (Rle_dec t (v a)); try reflexivity; exfalso; nra.
Qed.
Lemma ratio_bounds : forall a n, (a <= n)%nat -> (0 < n)%nat -> 0 <= INR a / INR n <= 1.
Proof.
  intros a n H Hn. assert (P : 0 < INR n) by (apply lt_0_INR; exact Hn). assert (Q := pos_INR a). assert (Z := le_INR _ _ H). split.
  - apply Rmult_le_pos; [ exact Q | left; apply Rinv_0_lt_compat; exact P ].
  - apply (Rmult_le_reg_r (INR n)); [ exact P | ]. unfold Rdiv. rewrite Rmult_assoc, Rinv_l by lra. lra.
Qed.
Lemma ratio_mono : forall a b n, (a <= b)%nat -> (0 < n)%nat -> INR a / INR n <= INR b / INR n.
Proof. intros a b n H Hn. apply Rmult_le_compat_r; [ left; apply Rinv_0_lt_compat; apply lt_0_INR; exact Hn | apply le_INR; exact H ]. Qed.
Lemma nth_mapseq : forall {B} (f : nat -> B) n i d, (i < n)%nat -> nth i (map f (seq 0 n)) d = f i.
Proof. intros B f n i d H. rewrite (nth_indep (map f (seq 0 n)) d (f 0%nat)) by (rewrite map_length, seq_length; exact H). rewrite (map_nth f), seq_nth by exact H. reflexivity. Qed.
Lemma threshold_mono : forall lo hi n i j, lo <= hi -> (i <= j)%nat -> threshold lo hi n i <= threshold lo hi n j.
Proof.
  intros lo hi n i j H Hij. unfold threshold. destruct (Nat.eqb n 1); [ lra | ]. apply Rplus_le_compat_l. apply Rmult_le_compat_r; [ | apply le_INR; exact Hij ].
  destruct (Nat.eq_dec (n - 1) 0) as [E | E]; [ rewrite E; cbn [INR]; unfold Rdiv; rewrite Rinv_0; lra | ].
  apply Rmult_le_pos; [ lra | left; apply Rinv_0_lt_compat; apply lt_0_INR; lia ].
Qed.
Lemma threshold_first : forall lo hi n, threshold lo hi n 0 = lo.
Proof. intros. unfold threshold. destruct (Nat.eqb n 1); [ reflexivity | ]. cbn [INR]. ring. Qed.
Lemma threshold_last : forall lo hi n, (1 < n)%nat -> threshold lo hi n (n - 1) = hi.
Proof.
  intros lo hi n H. unfold threshold. destruct (Nat.eqb_spec n 1); [ lia | ]. assert (P : 0 < INR (n - 1)) by (apply lt_0_INR; lia). field. lra.
Qed.
Lemma threshold_step : forall lo hi n i, (1 < n)%nat -> threshold lo hi n (S i) = threshold lo hi n i + (hi - lo) / INR (n - 1).
Proof. intros lo hi n i H. unfold threshold. destruct (Nat.eqb_spec n 1); [ lia | ]. rewrite S_INR. ring. Qed.
Lemma first_above : forall (f : nat -> R) m n, f n > m -> f 0%nat <= m -> exists i, (i < n)%nat /\ f i <= m /\ f (S i) > m.
Proof.
  intros f m n. induction n as [ | n IH]; intros H H0; [ lra | ]. destruct (Rle_lt_dec (f n) m) as [L | L]; [ exists n; repeat split; [ lia | exact L | exact H ] | ].
  destruct (IH L H0) as [i [Hi K]]. exists i. split; [ lia | exact K ].
Qed.
Lemma add_sections : forall l r s, sections (fold_left (fun r p => add_artifact r (fst p) (snd p)) l r) s = sections r s ++ of_section s l.
Proof.
  induction l as [ | [k a] l IH]; intros r s; cbn [fold_left]; [ symmetry; apply app_nil_r | ]. rewrite IH. unfold of_section. cbn [filter map fst snd add_artifact sections].
  destruct (Nat.eqb_spec s k) as [-> | N]; [ cbn [map snd]; rewrite <- app_assoc; reflexivity | reflexivity ].
Qed.
Lemma add_thresholds : forall l r, num_thresholds (fold_left (fun r p => add_artifact r (fst p) (snd p)) l r) = num_thresholds r.
Proof. induction l as [ | [k a] l IH]; intros r; cbn [fold_left]; [ reflexivity | ]. rewrite IH. reflexivity. Qed.
Lemma collect_ok : forall n r h0 h1 from, (forall i, (from <= i < from + n)%nat -> h0 i <> [] /\ h1 i <> []) ->
  exists r', collect r h0 h1 from n = Ok r' /\ num_thresholds r' = num_thresholds r /\
  exists l, sections r' 0 = sections r 0 ++ l /\ length l = n /\ forall i, (i < n)%nat -> is_largest (h0 (from + i)%nat) (fst (nth i l (0, 0))) /\ is_largest (h1 (from + i)%nat) (snd (nth i l (0, 0))).
Proof.
  induction n as [ | n IH]; intros r h0 h1 from H; cbn [collect].
  - exists r. split; [ reflexivity | ]. split; [ reflexivity | ]. exists []. split; [ symmetry; apply app_nil_r | ]. split; [ reflexivity | intros i Hi; lia ].
  - destruct (H from ltac:(lia)) as [N0 N1]. destruct (maximum_spec _ N0) as [a [Ea Ha]]. destruct (maximum_spec _ N1) as [b [Eb Hb]]. unfold artifact. rewrite Ea, Eb. cbn [bind].
    destruct (IH (add_artifact r 0 (a, b)) h0 h1 (S from)) as [r' [E [T [l [S1 [L K]]]]]]; [ intros i Hi; apply H; lia | ].
    exists r'. split; [ exact E | ]. split; [ rewrite T; reflexivity | ]. exists ((a, b) :: l). split; [ rewrite S1; cbn [add_artifact sections Nat.eqb]; rewrite <- app_assoc; reflexivity | ].
    split; [ cbn; rewrite L; reflexivity | ]. intros [ | i] Hi; [ rewrite Nat.add_0_r; split; [ exact Ha | exact Hb ] | ]. cbn [nth]. replace (from + S i)%nat with (S from + i)%nat by lia. apply K. lia.
Qed.
Lemma collect_fails : forall n r h0 h1 from i, (from <= i < from + n)%nat -> h0 i = [] \/ h1 i = [] -> collect r h0 h1 from n = Raise ValueError.
Proof.
  induction n as [ | n IH]; intros r h0 h1 from i Hi H; [ lia | ]. cbn [collect]. destruct (Nat.eq_dec i from) as [-> | N].
  - unfold artifact. destruct H as [-> | ->]; [ reflexivity | ]. destruct (h0 from) as [ | x y]; reflexivity.
  - unfold artifact. destruct (h0 from) as [ | x y]; [ reflexivity | ]. cbn [maximum bind]. destruct (h1 from) as [ | z w]; [ reflexivity | ]. cbn [maximum bind]. apply (IH _ _ _ (S from) i); [ lia | exact H ].
Qed.

(** ** Root mean square errors *)
Lemma fold_plus : forall l a, fold_left Rplus l a = a + rsum (fun x => x) l.
Proof. induction l as [ | x l IH]; intros a; cbn [fold_left rsum]; [ ring | ]. rewrite IH. ring. Qed.
Lemma rsum_app : forall {A} (f : A -> R) a b, rsum f (a ++ b) = rsum f a + rsum f b.
Proof. intros A f a b. induction a as [ | x a IH]; cbn [app rsum]; [ ring | ]. rewrite IH. ring. Qed.
Lemma rsum_map : forall {A B} (f : B -> R) (g : A -> B) l, rsum f (map g l) = rsum (fun x => f (g x)) l.
Proof. intros A B f g l. induction l as [ | x l IH]; [ reflexivity | ]. cbn [map rsum]. rewrite IH. reflexivity. Qed.
Lemma errors_sum : forall ps ts, rsum (fun x => x) (square_errors ps ts) = rsum (fun p => rsum (fun t => norm (vsub p t) ^ 2) ts) ps.
Proof. intros ps ts. unfold square_errors. induction ps as [ | p ps IH]; [ reflexivity | ]. cbn [flat_map rsum]. rewrite rsum_app, IH, rsum_map. reflexivity. Qed.
Lemma rsum_nonneg : forall {A} (f : A -> R) l, (forall x, 0 <= f x) -> 0 <= rsum f l.
Proof. intros A f l H. induction l as [ | x l IH]; cbn [rsum]; [ lra | ]. specialize (H x). lra. Qed.
Lemma rsum_zero : forall {A} (f : A -> R) l, (forall x, 0 <= f x) -> (rsum f l = 0 <-> forall x, In x l -> f x = 0).
Proof.
  intros A f l H. induction l as [ | x l IH]; cbn [rsum]; [ split; [ intros _ y [] | reflexivity ] | ]. assert (P := rsum_nonneg f l H). assert (Q := H x). split.
  - intros E y [<- | Hy]; [ lra | apply IH; [ lra | exact Hy ] ].
  - intros K. rewrite (K x (or_introl eq_refl)). assert (rsum f l = 0) by (apply IH; intros y Hy; apply K; right; exact Hy). lra.
Qed.
Lemma rms_sections : forall l s, rms_history l s = (list_sum (map pair_count (of_section s l)), rsum pair_error (of_section s l)).
Proof.
  intros l s. unfold rms_history.
  assert (K : forall l r, fold_left (fun r p => add_rms r (fst p) (rms_artifact (fst (snd p)) (snd (snd p)))) l r s =
    ((fst (r s) + list_sum (map pair_count (of_section s l)))%nat, snd (r s) + rsum pair_error (of_section s l))).
  { clear l. induction l as [ | [k d] l IH]; intros r; cbn [fold_left]; [ unfold of_section; cbn; rewrite Nat.add_0_r, Rplus_0_r; destruct (r s); reflexivity | ].
    rewrite IH. unfold of_section, add_rms. cbn [filter map fst snd]. destruct (Nat.eqb_spec s k) as [-> | N]; [ | reflexivity ].
    cbn [map snd list_sum fold_right rsum fst]. unfold rms_artifact at 1 2. cbn [fst snd]. rewrite fold_plus, errors_sum. fold (pair_error d). unfold pair_count at 2. unfold list_sum. cbn [fold_right]. f_equal; [ lia | ring ]. }
  rewrite K. unfold new_rms. cbn [fst snd]. rewrite Nat.add_0_l, Rplus_0_l. reflexivity.
Qed.
