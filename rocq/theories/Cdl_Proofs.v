(** Proofs about cluster delay lines. *)
From Coq Require Import Reals List Lra Lia Sorting.Sorted Sorting.Permutation FinFun.
From Verif Require Import Base BaseLemmas Log_Model Cdl_Model Cdl_Spec.
Import ListNotations.
Open Scope R_scope.

(** ** Sorting *)
Lemma insert_perm : forall x l, Permutation (x :: l) (insert x l).
Proof.
  intros x l. induction l as [|y r IH]; cbn [insert]; [reflexivity|]. destruct (Rle_dec x y); [reflexivity|].
  rewrite perm_swap. apply perm_skip. exact IH.
Qed.
Lemma sort_perm : forall l, Permutation l (sort l).
Proof. induction l as [|x r IH]; cbn; [reflexivity|]. rewrite IH at 1. apply insert_perm. Qed.
Lemma insert_sorted : forall x l, ascending l -> ascending (insert x l).
Proof.
  intros x l H. induction H as [|y r H IH F]; cbn [insert]; [repeat constructor|]. destruct (Rle_dec x y) as [L|L].
  - constructor; [constructor; assumption|]. constructor; [exact L|]. rewrite Forall_forall in *. intros z I. specialize (F z I). lra.
  - constructor; [exact IH|]. rewrite Forall_forall in *. intros z I. apply (Permutation_in z (Permutation_sym (insert_perm x r))) in I. destruct I as [<-|I]; [lra|apply F; exact I].
Qed.
Lemma sort_sorted : forall l, ascending (sort l).
Proof. induction l as [|x r IH]; cbn; [constructor|]. apply insert_sorted. exact IH. Qed.
Lemma ascending_map : forall (f : R -> R) l, (forall a b, a <= b -> f a <= f b) -> ascending l -> ascending (map f l).
Proof.
  intros f l M H. induction H as [|y r H IH F]; cbn; constructor; [exact IH|]. rewrite Forall_forall in *. intros z I. apply in_map_iff in I. destruct I as (w & <- & I). apply M, F, I.
Qed.
Lemma ascending_hd : forall l x, ascending l -> In x l -> hd 0 l <= x.
Proof. intros l x H I. destruct H as [|y r H F]; [destruct I|]. cbn. destruct I as [<-|I]; [lra|]. rewrite Forall_forall in F. apply F. exact I. Qed.

(** ** Scales *)
Lemma rice_scale_pos : forall k, -20 <= k -> 0 < rice_scale k.
Proof.
  intros k H. unfold rice_scale. assert (0 < 17 / 100000 * k * k - 32 / 10000 * k + 207 / 10000) by (pose proof (pow2_ge_0 (k - 160 / 17)); nra).
  assert (0 <= (k + 20) * (17 / 100000 * k * k - 32 / 10000 * k + 207 / 10000)) by (apply Rmult_le_pos; lra). nra.
Qed.
Lemma rice_scale_neg : forall k, k <= -25 -> rice_scale k < 0.
Proof.
  intros k H. unfold rice_scale. assert (0 < 17 / 100000 * k * k - 405 / 100000 * k + 5795 / 100000) by nra.
  assert (0 <= - (k + 25) * (17 / 100000 * k * k - 405 / 100000 * k + 5795 / 100000)) by (apply Rmult_le_pos; lra). nra.
Qed.
Lemma standard_scale_pos : forall k, 0 <= k -> 0 < standard_scale k.
Proof.
  intros k H. unfold standard_scale.
  (* tangent at k = 25 *)
  assert (0 <= (k - 25) ^ 2 * (17 / 1000000 * k + 105 / 100000)) by (apply Rmult_le_pos; [apply pow2_ge_0|lra]). nra.
Qed.
Lemma scales_differ : forall k, 0 <= k -> standard_scale k < rice_scale k.
Proof. intros k H. unfold standard_scale, rice_scale. assert (0 <= k ^ 3) by (apply pow_le; exact H). lra. Qed.

(** ** Sums *)
Lemma sum_total : forall l, sum l = total l.
Proof. reflexivity. Qed.
Lemma sum_nonneg : forall l, (forall x, In x l -> 0 <= x) -> 0 <= sum l.
Proof. induction l as [|x r IH]; intro H; cbn; [lra|]. pose proof (H x (or_introl eq_refl)). assert (0 <= sum r) by (apply IH; intros; apply H; right; assumption). unfold sum in *. lra. Qed.
Lemma sum_pos : forall l, l <> [] -> (forall x, In x l -> 0 < x) -> 0 < sum l.
Proof.
  intros [|x r] N H; [contradiction N; reflexivity|]. cbn. pose proof (H x (or_introl eq_refl)). assert (0 <= sum r) by (apply sum_nonneg; intros; apply Rlt_le, H; right; assumption). unfold sum in *. lra.
Qed.
Lemma sum_scale : forall k l, sum (map (fun p => p / k) l) = sum l / k.
Proof. intros k l. induction l as [|x r IH]; cbn; [lra|]. unfold sum in *. rewrite IH. lra. Qed.
Lemma sum_mult : forall {X} (f : X -> R) k l, sum (map (fun p => k * f p) l) = k * sum (map f l).
Proof. intros X f k l. induction l as [|x r IH]; cbn; [lra|]. unfold sum in *. rewrite IH. lra. Qed.
Lemma sum_le : forall {X} (f g : X -> R) l, (forall x, In x l -> f x <= g x) -> sum (map f l) <= sum (map g l).
Proof. intros X f g l. induction l as [|x r IH]; intro H; cbn; [lra|]. pose proof (H x (or_introl eq_refl)). assert (sum (map f r) <= sum (map g r)) by (apply IH; intros; apply H; right; assumption). unfold sum in *. lra. Qed.
Lemma sum_filter : forall f l, sum l = sum (filter f l) + sum (filter (fun x => negb (f x)) l).
Proof. intros f l. induction l as [|x r IH]; cbn; [lra|]. unfold sum in *. destruct (f x); cbn; rewrite IH; lra. Qed.
Lemma sum_bound : forall m l, (forall x, In x l -> x <= m) -> sum l <= INR (length l) * m.
Proof.
  intros m l. induction l as [|x r IH]; intro H; cbn [length]; [cbn; lra|]. rewrite S_INR. pose proof (H x (or_introl eq_refl)). assert (sum r <= INR (length r) * m) by (apply IH; intros; apply H; right; assumption).
  unfold sum in *. cbn [fold_right]. lra.
Qed.

(** ** Powers *)
Lemma ten_pos : forall x, 0 < Rpower 10 x.
Proof. intro x. apply exp_pos. Qed.
Lemma ten_lt : forall x y, x < y -> Rpower 10 x < Rpower 10 y.
Proof. intros x y H. apply Rpower_lt; lra. Qed.
Lemma ten_le : forall x y, x <= y -> Rpower 10 x <= Rpower 10 y.
Proof. intros x y H. apply Rle_Rpower; lra. Qed.
Lemma ten_minus : forall n, Rpower 10 (- INR n) = / 10 ^ n.
Proof. intro n. rewrite Rpower_Ropp, Rpower_pow by lra. reflexivity. Qed.
Lemma cutoff_lt : Rpower 10 (- 25 / 10) < 1 / 100.
Proof.
  replace (1 / 100) with (Rpower 10 (- INR 2)) by (rewrite ten_minus; lra). apply ten_lt. cbn. lra.
Qed.
Lemma raw_powers_length : forall r s d z, length d = length z -> length (raw_powers r s d z) = length d.
Proof. intros. unfold raw_powers. rewrite map_length, combine_length. lia. Qed.
Lemma raw_powers_pos : forall r s d z p, In p (raw_powers r s d z) -> 0 < p.
Proof. intros r s d z p I. apply in_map_iff in I. destruct I as (q & <- & _). apply Rmult_lt_0_compat; [apply exp_pos|apply ten_pos]. Qed.
Lemma normalise_length : forall los k l, length (normalise los k l) = length l.
Proof. intros [] k l; unfold normalise; [|apply map_length]. destruct l; cbn; [reflexivity|]. rewrite map_length. reflexivity. Qed.
Lemma normalise_pos : forall los k l, (forall p, In p l -> 0 < p) -> forall p, In p (normalise los k l) -> 0 < p.
Proof.
  intros los k l H p I. assert (K : 0 < db2lin k Power) by apply exp_pos. assert (N : l <> []) by (intros ->; destruct los; destruct I). pose proof (sum_pos l N H) as S.
  assert (G : forall q, In q l -> 0 < q / ((1 + db2lin k Power) * sum l)) by (intros q J; apply Rdiv_lt_0_compat; [apply H; exact J|apply Rmult_lt_0_compat; lra]).
  unfold normalise in I. destruct los.
  - destruct l as [|q r]; [destruct I|]. cbn [map] in I. destruct I as [<-|I].
    + pose proof (G q (or_introl eq_refl)). assert (0 < db2lin k Power / (1 + db2lin k Power)) by (apply Rdiv_lt_0_compat; lra). lra.
    + apply in_map_iff in I. destruct I as (x & <- & I). apply G. right. exact I.
  - apply in_map_iff in I. destruct I as (x & <- & I). apply Rdiv_lt_0_compat; [apply H; exact I|exact S].
Qed.
Lemma normalise_sum : forall los k l, l <> [] -> (forall p, In p l -> 0 < p) -> sum (normalise los k l) = 1.
Proof.
  intros los k l N H. assert (K : 0 < db2lin k Power) by apply exp_pos. pose proof (sum_pos l N H) as S. unfold normalise. destruct los.
  - pose proof (sum_scale ((1 + db2lin k Power) * sum l) l) as E. destruct l as [|q r]; [contradiction N; reflexivity|]. cbn [map] in E |- *. unfold sum at 1 in E. cbn [fold_right] in E.
    unfold sum at 1. cbn [fold_right]. fold (sum (q :: r)) in *.
    replace (q / ((1 + db2lin k Power) * sum (q :: r)) + db2lin k Power / (1 + db2lin k Power) + fold_right Rplus 0 (map (fun p => p / ((1 + db2lin k Power) * sum (q :: r))) r))
      with (sum (q :: r) / ((1 + db2lin k Power) * sum (q :: r)) + db2lin k Power / (1 + db2lin k Power)) by (rewrite <- E; lra).
    field. split; lra.
  - rewrite sum_scale. field. lra.
Qed.
Lemma eliminate_first : forall l, (forall p, In p l -> 0 < p) -> forall p r, l = p :: r -> exists r', eliminate l = p :: r'.
Proof.
  intros l H p r ->. unfold eliminate. cbn [filter hd]. pose proof (H p (or_introl eq_refl)) as P. unfold keeps at 1. destruct (Rle_dec _ _) as [L|L]; [eauto|].
  exfalso. apply L. pose proof cutoff_lt. pose proof (ten_pos (-25 / 10)). nra.
Qed.
Lemma keeps_spec : forall a p, keeps a p = true <-> ~ far_weaker a p.
Proof. intros a p. unfold keeps, far_weaker. destruct (Rle_dec _ _); split; intros; try discriminate; try reflexivity; lra. Qed.
Lemma filter_prefix : forall {X Y} (f : X * Y -> bool) (l : list (X * Y)), NoDup (map fst l) ->
  map fst (filter f l) = firstn (length (filter f l)) (map fst l) -> filter f l = firstn (length (filter f l)) l.
Proof.
  intros X Y f l. induction l as [|x r IH]; intros N E; [reflexivity|]. cbn [filter map] in *. inversion N as [|? ? N1 N2]; subst. destruct (f x) eqn:F.
  - cbn [length firstn map] in *. f_equal. apply IH; [exact N2|]. congruence.
  - destruct (filter f r) as [|y t] eqn:G; [reflexivity|]. exfalso. cbn [length firstn map] in E. assert (H : fst y = fst x) by congruence. apply N1. rewrite <- H.
    apply in_map. assert (I : In y (filter f r)) by (rewrite G; left; reflexivity). apply filter_In in I. apply I.
Qed.
Lemma filter_combine : forall {X Y} (g : Y -> bool) (a : list X) (b : list Y), length a = length b -> map snd (filter (fun q => g (snd q)) (combine a b)) = filter g b.
Proof.
  intros X Y g a. induction a as [|x a IH]; intros [|y b] L; try discriminate; [reflexivity|]. cbn [combine filter map snd]. destruct (g y); cbn [map snd]; rewrite IH by (injection L; auto); reflexivity.
Qed.
Lemma combine_fst_snd : forall {X Y} (l : list (X * Y)), combine (map fst l) (map snd l) = l.
Proof. intros X Y l. induction l as [|[x y] r IH]; cbn; [reflexivity|]. rewrite IH. reflexivity. Qed.
Lemma map_fst_combine : forall {X Y} (a : list X) (b : list Y), length a = length b -> map fst (combine a b) = a.
Proof. intros X Y a. induction a as [|x a IH]; intros [|y b] L; try discriminate; [reflexivity|]. cbn. rewrite IH by (injection L; auto). reflexivity. Qed.
Lemma map_snd_combine : forall {X Y} (a : list X) (b : list Y), length a = length b -> map snd (combine a b) = b.
Proof. intros X Y a. induction a as [|x a IH]; intros [|y b] L; try discriminate; [reflexivity|]. cbn. rewrite IH by (injection L; auto). reflexivity. Qed.
Lemma combine_firstn : forall {X Y} n (a : list X) (b : list Y), firstn n (combine a b) = combine (firstn n a) (firstn n b).
Proof. intros X Y n. induction n as [|n IH]; intros a b; [reflexivity|]. destruct a as [|x a]; [reflexivity|]. destruct b as [|y b]; cbn [combine firstn]; [reflexivity|]. rewrite IH. reflexivity. Qed.

(** ** Oxygen *)
Lemma oxygen_factor_one : forall f, 0 < f -> oxygen_factor f = 1.
Proof. intros f H. unfold oxygen_factor, interp. cbn [oxygen_table nth fst snd]. destruct (Rlt_dec 0 (f / 1000000000)); [reflexivity|]. exfalso. apply n. lra. Qed.

(** ** Angular spread *)
Lemma sum_plus : forall {X} (f g : X -> R) l, sum (map (fun x => f x + g x) l) = sum (map f l) + sum (map g l).
Proof. intros X f g l. induction l as [|x r IH]; cbn; [lra|]. unfold sum in *. rewrite IH. lra. Qed.
Lemma sum_ext : forall {X} (f g : X -> R) l, (forall x, In x l -> f x = g x) -> sum (map f l) = sum (map g l).
Proof. intros X f g l H. f_equal. apply map_ext_in. exact H. Qed.
Lemma square_sum : forall {X} (f : X -> R) l, (sum (map f l)) ^ 2 = sum (map (fun a => sum (map (fun b => f a * f b) l)) l).
Proof.
  intros X f l. rewrite (sum_ext (fun a => sum (map (fun b => f a * f b) l)) (fun a => sum (map f l) * f a)).
  - rewrite sum_mult. ring.
  - intros a _. rewrite sum_mult. ring.
Qed.
Definition gap (l : list (R * R)) : R := sum (map (fun a => sum (map (fun b => snd a * snd b * (1 - cos (fst a - fst b))) l)) l).
Lemma spread_identity : forall l, (sum (map snd l)) ^ 2 - ((sum (map (fun q => cos (fst q) * snd q) l)) ^ 2 + (sum (map (fun q => sin (fst q) * snd q) l)) ^ 2) = gap l.
Proof.
  intro l. rewrite !square_sum. rewrite <- sum_plus. unfold gap.
  match goal with |- ?x - ?y = ?z => assert (E : x = y + z); [|lra] end. rewrite <- sum_plus. apply sum_ext. intros a _. rewrite <- !sum_plus. apply sum_ext. intros b _. rewrite cos_minus. ring.
Qed.
Lemma gap_nonneg : forall l, (forall q, In q l -> 0 < snd q) -> 0 <= gap l.
Proof.
  intros l H. apply sum_nonneg. intros x I. apply in_map_iff in I. destruct I as (a & <- & Ia). apply sum_nonneg. intros y J. apply in_map_iff in J. destruct J as (b & <- & Ib).
  pose proof (H a Ia). pose proof (H b Ib). pose proof (COS_bound (fst a - fst b)) as [_ C]. apply Rmult_le_pos; [apply Rmult_le_pos; lra|lra].
Qed.
Lemma sum_zero : forall l, (forall x, In x l -> 0 <= x) -> sum l = 0 -> forall x, In x l -> x = 0.
Proof.
  induction l as [|y r IH]; intros H E x I; [destruct I|]. unfold sum in *. cbn [fold_right] in E. pose proof (H y (or_introl eq_refl)). assert (0 <= fold_right Rplus 0 r) by (apply sum_nonneg; intros; apply H; right; assumption).
  destruct I as [<-|I]; [lra|]. apply IH; [intros; apply H; right; assumption|lra|exact I].
Qed.
Lemma gap_zero : forall l, (forall q, In q l -> 0 < snd q) -> (gap l = 0 <-> forall a b, In a l -> In b l -> cos (fst a - fst b) = 1).
Proof.
  intros l H. split.
  - intros E a b Ia Ib. unfold gap in E.
    assert (N : forall a', In a' l -> forall y, In y (map (fun b' => snd a' * snd b' * (1 - cos (fst a' - fst b'))) l) -> 0 <= y).
    { intros a' Ia' y J. apply in_map_iff in J. destruct J as (b' & <- & Ib'). pose proof (H a' Ia'). pose proof (H b' Ib'). pose proof (COS_bound (fst a' - fst b')) as [_ C]. apply Rmult_le_pos; [apply Rmult_le_pos; lra|lra]. }
    assert (Z : sum (map (fun b' => snd a * snd b' * (1 - cos (fst a - fst b'))) l) = 0).
    { apply (sum_zero _ ltac:(intros x J; apply in_map_iff in J; destruct J as (a' & <- & Ia'); apply sum_nonneg; apply N; exact Ia') E). apply (in_map (fun a' => sum (map (fun b' => snd a' * snd b' * (1 - cos (fst a' - fst b'))) l))). exact Ia. }
    assert (W : snd a * snd b * (1 - cos (fst a - fst b)) = 0).
    { apply (sum_zero _ (N a Ia) Z). apply (in_map (fun b' => snd a * snd b' * (1 - cos (fst a - fst b')))). exact Ib. }
    pose proof (H a Ia). pose proof (H b Ib). assert (0 < snd a * snd b) by (apply Rmult_lt_0_compat; assumption). apply Rmult_integral in W. destruct W; lra.
  - intro E. unfold gap. rewrite (sum_ext _ (fun _ => 0 * 0)).
    + rewrite (sum_mult (fun _ : R * R => 0) 0). lra.
    + intros a Ia. rewrite (sum_ext _ (fun _ => 0 * 0)); [rewrite (sum_mult (fun _ : R * R => 0) 0); lra|]. intros b Ib. rewrite (E a b Ia Ib). lra.
Qed.
Lemma resultant_sq : forall l, l <> [] -> (forall q, In q l -> 0 < snd q) -> 0 <= resultant l /\ (resultant l) ^ 2 = 1 - gap l / (sum (map snd l)) ^ 2.
Proof.
  intros l N H. assert (S : 0 < sum (map snd l)).
  { apply sum_pos; [destruct l; [contradiction N; reflexivity|discriminate]|]. intros x I. apply in_map_iff in I. destruct I as (q & <- & I). apply H. exact I. }
  unfold resultant. split; [apply Rmult_le_pos; [apply sqrt_pos|left; apply Rinv_0_lt_compat; exact S]|].
  rewrite <- spread_identity. unfold Rdiv. rewrite Rpow_mult_distr, pow2_sqrt.
  - field. lra.
  - apply Rplus_le_le_0_compat; apply pow2_ge_0.
Qed.

(** ** Samples *)
Lemma ascending_unique : forall l m, ascending l -> ascending m -> Permutation l m -> l = m.
Proof.
  induction l as [|x r IH]; intros m A B P; [symmetry; apply Permutation_nil; exact P|]. destruct m as [|y t]; [exfalso; apply (Permutation_nil_cons (Permutation_sym P))|].
  inversion A as [|? ? A1 A2]; subst. inversion B as [|? ? B1 B2]; subst. rewrite Forall_forall in *. assert (E : x = y).
  { assert (I : In x (y :: t)) by (apply (Permutation_in x P); left; reflexivity). assert (J : In y (x :: r)) by (apply (Permutation_in y (Permutation_sym P)); left; reflexivity).
    destruct I as [I|I]; [congruence|]. destruct J as [J|J]; [congruence|]. apply Rle_antisym; auto. }
  subst y. f_equal. apply IH; [assumption..|]. apply Permutation_cons_inv with x. exact P.
Qed.
Lemma ordered_sort : forall i l, ordered_delays i l -> sort (map (fun x => - i_r_tau i * i_spread i * ln x) (i_xs i)) = l.
Proof. intros i l [A P]. apply ascending_unique; [apply sort_sorted|exact A|]. etransitivity; [symmetry; apply sort_perm|exact P]. Qed.
Lemma ordered_exists : forall i, ordered_delays i (sort (map (fun x => - i_r_tau i * i_spread i * ln x) (i_xs i))).
Proof. intro i. split; [apply sort_sorted|apply sort_perm]. Qed.
Lemma ordered_length : forall i l, ordered_delays i l -> length l = length (i_xs i).
Proof. intros i l [_ P]. rewrite <- (Permutation_length P), map_length. reflexivity. Qed.
Lemma delay_nonneg : forall r s x, 0 < r -> 0 < s -> 0 < x <= 1 -> 0 <= delay_of r s x.
Proof.
  intros r s x R S [X Y]. unfold delay_of. assert (ln x <= 0). { destruct (Rle_lt_or_eq_dec x 1 Y) as [L| ->]; [|rewrite ln_1; lra]. pose proof (ln_increasing x 1 X L). rewrite ln_1 in *. lra. }
  assert (0 < r * s) by (apply Rmult_lt_0_compat; assumption). nra.
Qed.
Lemma delay_injective : forall r s x y, 0 < r -> 0 < s -> 0 < x -> 0 < y -> delay_of r s x = delay_of r s y -> x = y.
Proof.
  intros r s x y R S X Y E. unfold delay_of in E. apply ln_inv; try assumption. apply Rmult_eq_reg_l with (- r * s); [exact E|]. assert (0 < r * s) by (apply Rmult_lt_0_compat; assumption). lra.
Qed.
(** The delays of all clusters, before weak ones are removed *)
Definition all_delays (i : link) (l : list R) : list R := map (fun t => (t - hd 0 l) / (if i_los i then rice_scale (i_rice i) else 1)) l.
Definition minimum (i : link) (l : list R) : R := if i_los i then 0 else hd 0 l.
Lemma normalise_normalised : forall los k ps, normalise los k ps = normalised los (Rpower 10 (k / 10)) ps.
Proof. intros [] k [|p r]; reflexivity. Qed.
Lemma raw_profile : forall r s h l zs, raw_powers r s (map (fun t => t - h) l) zs = map (fun q => profile_power r s (fst q - h) (snd q)) (combine l zs).
Proof.
  intros r s h l. induction l as [|t l IH]; intros [|z zs]; cbn [map combine]; try reflexivity. unfold raw_powers in *. cbn [map combine]. rewrite IH. f_equal. unfold profile_power. cbn [fst snd]. do 2 f_equal. lra.
Qed.
Lemma sample_form : forall i l s, ordered_delays i l -> sample_of i = Ok s ->
  i_distance i <> 0 /\ s = mkSample (i_los i) (i_rice i) (match i_normalization i with TOF => i_distance i / speed_of_light | ZERO => 0 end)
    (firstn (length (eliminate (standard_powers i l))) (all_delays i l)) (i_spread i)
    (map (fun q => snd q * db2lin (- i_pathloss i) Power * (i_gain i * oxygen_loss (i_absorption i) (i_carrier i) (i_distance i) (minimum i l) (fst q)) ^ 2)
         (combine (firstn (length (eliminate (standard_powers i l))) (all_delays i l)) (eliminate (standard_powers i l)))).
Proof.
  intros i l s Or E. unfold sample_of in E. destruct (Req_EM_T (i_distance i) 0) as [D|D]; [discriminate|]. split; [exact D|].
  unfold cluster_delays in E. rewrite (ordered_sort i l Or) in E.
  assert (P : cluster_powers (i_r_tau i) (i_spread i) (map (fun t => t - hd 0 l) l) (i_zs i) (i_los i) (i_rice i) = eliminate (standard_powers i l)) by (unfold cluster_powers, standard_powers; rewrite normalise_normalised, raw_profile; reflexivity).
  unfold all_delays, minimum. destruct (i_los i) eqn:L; rewrite P in E; injection E as <-.
  - rewrite map_map. reflexivity.
  - replace (map (fun t => (t - hd 0 l) / 1) l) with (map (fun t => t - hd 0 l) l) by (apply map_ext; intro; lra). reflexivity.
Qed.
Lemma sample_exists : forall i, i_distance i <> 0 -> exists s, sample_of i = Ok s.
Proof. intros i D. unfold sample_of. destruct (Req_EM_T (i_distance i) 0) as [E|_]; [contradiction|]. destruct (cluster_delays _ _ _ _ _) as [[raw scaled] minimal]. eexists. reflexivity. Qed.
Lemma standard_length : forall i l, sound i -> ordered_delays i l -> length (standard_powers i l) = length l.
Proof.
  intros i l (_ & _ & _ & Z & _) Or. unfold standard_powers. rewrite <- normalise_normalised, normalise_length, map_length, combine_length, (ordered_length i l Or). lia.
Qed.
Lemma all_delays_length : forall i l, length (all_delays i l) = length l.
Proof. intros. apply map_length. Qed.
Lemma eliminate_length : forall l, (length (eliminate l) <= length l)%nat.
Proof. intro l. unfold eliminate. induction l as [|x r IH] at 2 3; cbn [filter length]; [lia|]. destruct (keeps _ x); cbn [length]; lia. Qed.
Lemma sound_nonempty : forall i l, sound i -> ordered_delays i l -> l <> [].
Proof. intros i l (_ & _ & N & _) Or ->. apply ordered_length in Or. destruct (i_xs i); [apply N; reflexivity|discriminate]. Qed.
Lemma profile_pos : forall r s t z, 0 < profile_power r s t z.
Proof. intros. apply Rmult_lt_0_compat; apply exp_pos. Qed.
Lemma standard_pos : forall i l p, In p (standard_powers i l) -> 0 < p.
Proof.
  intros i l p. unfold standard_powers. rewrite <- normalise_normalised. apply normalise_pos. intros q I. apply in_map_iff in I. destruct I as (w & <- & _). apply profile_pos.
Qed.
Lemma standard_sum : forall i l, sound i -> ordered_delays i l -> sum (standard_powers i l) = 1.
Proof.
  intros i l So Or. unfold standard_powers. rewrite <- normalise_normalised. apply normalise_sum.
  - intro E. pose proof (f_equal (@length R) E) as L. rewrite map_length, combine_length, (ordered_length i l Or) in L. destruct So as (_ & _ & N & Z & _). rewrite Z in L. destruct (i_xs i); [apply N; reflexivity|cbn in L; lia].
  - intros q I. apply in_map_iff in I. destruct I as (w & <- & _). apply profile_pos.
Qed.
Lemma standard_first : forall i l, sound i -> ordered_delays i l -> exists p r, standard_powers i l = p :: r /\ exists r', eliminate (standard_powers i l) = p :: r'.
Proof.
  intros i l So Or. destruct (standard_powers i l) as [|p r] eqn:E.
  - exfalso. pose proof (standard_length i l So Or) as L. rewrite E in L. pose proof (sound_nonempty i l So Or). destruct l; [congruence|discriminate].
  - exists p, r. split; [reflexivity|]. apply (eliminate_first (p :: r)) with r; [|reflexivity]. rewrite <- E. apply standard_pos.
Qed.
Lemma all_delays_sound : forall i l, sound i -> (i_los i = true -> -20 <= i_rice i) -> ordered_delays i l ->
  ascending (all_delays i l) /\ (forall t, In t (all_delays i l) -> 0 <= t) /\ exists r, all_delays i l = 0 :: r.
Proof.
  intros i l So K Or. assert (P : 0 < if i_los i then rice_scale (i_rice i) else 1) by (destruct (i_los i); [apply rice_scale_pos, K; reflexivity|lra]). pose proof (sound_nonempty i l So Or) as H. destruct Or as [A Pm].
  assert (Q : 0 < / (if i_los i then rice_scale (i_rice i) else 1)) by (apply Rinv_0_lt_compat; exact P). unfold all_delays, Rdiv. split; [|split].
  - apply ascending_map; [|exact A]. intros a b L. apply Rmult_le_compat_r; lra.
  - intros t I. apply in_map_iff in I. destruct I as (u & <- & I). pose proof (ascending_hd l u A I). apply Rmult_le_pos; lra.
  - destruct l as [|h r]; [contradiction H; reflexivity|]. cbn [map hd]. eexists. f_equal. lra.
Qed.
Lemma in_firstn : forall {X} n (l : list X) x, In x (firstn n l) -> In x l.
Proof. intros X n l x I. rewrite <- (firstn_skipn n l). apply in_or_app. left. exact I. Qed.
Lemma ascending_firstn : forall l n, ascending l -> ascending (firstn n l).
Proof.
  intros l n A. revert n. induction A as [|x t A IH F]; intros [|n]; cbn; try constructor; [apply IH|]. rewrite Forall_forall in *. intros y I. apply F. apply in_firstn in I. exact I.
Qed.

(** ** Pairs of delays and powers *)
Lemma pairing : forall (d p : list R) m ps, NoDup d -> length d = length p -> (m <= length d)%nat -> length ps = m ->
  ((forall q, In q (combine (firstn m d) ps) -> In q (combine d p)) <-> ps = firstn m p).
Proof.
  induction d as [|a d IH]; intros p m ps N L M E.
  - cbn in M. assert (m = 0%nat) by lia. subst m. destruct ps; [|discriminate]. destruct p; [|discriminate]. cbn. split; intros; [reflexivity|contradiction].
  - destruct p as [|b p]; [discriminate|]. destruct m as [|m]; [destruct ps; [|discriminate]; cbn; split; intros; [reflexivity|contradiction]|]. destruct ps as [|x ps]; [discriminate|].
    inversion N as [|? ? N1 N2]; subst. cbn in L, M, E. injection L as L. injection E as E. specialize (IH p m ps N2 L ltac:(lia) E). cbn [firstn combine]. split.
    + intro H. assert (X : x = b). { destruct (H (a, x) (or_introl eq_refl)) as [Q|Q]; [congruence|]. exfalso. apply N1. apply in_combine_l in Q. exact Q. }
      subst x. f_equal. apply IH. intros [u v] Q. destruct (H (u, v) (or_intror Q)) as [W|W]; [|exact W]. exfalso. injection W as -> _. apply N1. apply in_combine_l in Q. apply in_firstn in Q. exact Q.
    + intros W q [<-|Q]; injection W as -> W; [left; reflexivity|right]. apply IH; assumption.
Qed.
Lemma nodup_all_delays : forall i l, sound i -> (i_los i = true -> -20 <= i_rice i) -> NoDup (i_xs i) -> ordered_delays i l -> NoDup (all_delays i l).
Proof.
  intros i l So K N [_ P]. assert (Q : 0 < if i_los i then rice_scale (i_rice i) else 1) by (destruct (i_los i); [apply rice_scale_pos, K; reflexivity|lra]).
  assert (M : NoDup l). { apply (Permutation_NoDup P). destruct So as (R0 & S0 & _ & _ & X & _). clear P Q K.
    induction (i_xs i) as [|x r IH]; cbn; [constructor|]. inversion N as [|? ? N1 N2]; subst. constructor; [|apply IH; [intros y I; apply X; right; exact I|exact N2]].
    intro I. apply in_map_iff in I. destruct I as (y & E & I). apply N1. rewrite <- (delay_injective _ _ y x R0 S0 ltac:(apply X; right; exact I) ltac:(apply X; left; reflexivity) E). exact I. }
  apply FinFun.Injective_map_NoDup; [|exact M]. intros a b E. assert (Z : / (if i_los i then rice_scale (i_rice i) else 1) <> 0) by (apply Rinv_neq_0_compat; lra). unfold Rdiv in E. apply Rmult_eq_reg_r in E; [lra|exact Z].
Qed.

(** ** Energy *)
Lemma energy_form : forall i l, sound i -> ordered_delays i l ->
  energy i = db2lin (- i_pathloss i) Power * i_gain i ^ 2 *
    sum (map (fun q => snd q * oxygen_loss (i_absorption i) (i_carrier i) (i_distance i) (minimum i l) (fst q) ^ 2)
             (combine (firstn (length (eliminate (standard_powers i l))) (all_delays i l)) (eliminate (standard_powers i l)))).
Proof.
  intros i l So Or. unfold energy. destruct (sample_exists i) as (s & E); [destruct So as (_ & _ & _ & _ & _ & D & _); lra|]. rewrite E. destruct (sample_form i l s Or E) as (_ & ->). unfold energy_scale. cbn [s_powers].
  rewrite <- sum_mult. apply sum_ext. intros q _. ring.
Qed.
Lemma kept_length : forall i l, sound i -> ordered_delays i l -> length (firstn (length (eliminate (standard_powers i l))) (all_delays i l)) = length (eliminate (standard_powers i l)).
Proof. intros i l So Or. rewrite firstn_length, all_delays_length. pose proof (eliminate_length (standard_powers i l)). rewrite (standard_length i l So Or) in *. lia. Qed.
Lemma oxygen_pos : forall a f d m t, 0 < oxygen_loss a f d m t.
Proof. intros [] f d m t; unfold oxygen_loss; [apply ten_pos|lra]. Qed.
Lemma eliminate_in : forall l p, In p (eliminate l) -> In p l.
Proof. intros l p I. apply filter_In in I. apply I. Qed.
Lemma energy_pos : forall i, sound i -> i_gain i <> 0 -> 0 < energy i.
Proof.
  intros i So G. pose proof (ordered_exists i) as Or. set (l := sort _) in *. rewrite (energy_form i l So Or). apply Rmult_lt_0_compat.
  - apply Rmult_lt_0_compat; [apply ten_pos|]. assert (0 < i_gain i * i_gain i) by (apply Rsqr_pos_lt; exact G). cbn. lra.
  - destruct (standard_first i l So Or) as (p & r & _ & r' & Ef). pose proof (kept_length i l So Or) as L. apply sum_pos.
    + intro E. apply map_eq_nil in E. pose proof (f_equal (@length _) E) as E2. rewrite combine_length, L, Ef in E2. cbn in E2. lia.
    + intros x I. apply in_map_iff in I. destruct I as (q & <- & I). assert (J : In (snd q) (eliminate (standard_powers i l))) by (destruct q as [a b]; apply in_combine_r in I; exact I). apply eliminate_in, standard_pos in J.
      apply Rmult_lt_0_compat; [exact J|]. apply pow_lt, oxygen_pos.
Qed.
Lemma energy_plain : forall i l, sound i -> ordered_delays i l -> i_absorption i = false -> energy i = db2lin (- i_pathloss i) Power * i_gain i ^ 2 * sum (eliminate (standard_powers i l)).
Proof.
  intros i l So Or A. rewrite (energy_form i l So Or). f_equal. f_equal. transitivity (map (@snd R R) (combine (firstn (length (eliminate (standard_powers i l))) (all_delays i l)) (eliminate (standard_powers i l)))).
  - apply map_ext. intro q. unfold oxygen_loss. rewrite A. ring.
  - apply map_snd_combine. apply kept_length; assumption.
Qed.
Lemma filter_split_length : forall {X} (f : X -> bool) l, (length (filter f l) + length (filter (fun x => negb (f x)) l) = length l)%nat.
Proof. intros X f l. induction l as [|x r IH]; cbn; [reflexivity|]. destruct (f x); cbn; lia. Qed.
Lemma single_le_sum : forall l x, (forall y, In y l -> 0 < y) -> In x l -> x <= sum l.
Proof.
  induction l as [|y r IH]; intros x H I; [destruct I|]. unfold sum in *. cbn [fold_right]. pose proof (H y (or_introl eq_refl)). assert (0 <= fold_right Rplus 0 r) by (apply sum_nonneg; intros z J; apply Rlt_le, H; right; exact J).
  destruct I as [<-|I]; [lra|]. assert (x <= fold_right Rplus 0 r) by (apply IH; [intros; apply H; right; assumption|exact I]). lra.
Qed.
Lemma kept_bounds : forall i l, sound i -> ordered_delays i l ->
  1 - INR (length (i_xs i) - length (eliminate (standard_powers i l))) * Rpower 10 (-25 / 10) <= sum (eliminate (standard_powers i l)) <= 1.
Proof.
  intros i l So Or. pose proof (standard_sum i l So Or) as S1. pose proof (standard_length i l So Or) as L. rewrite (ordered_length i l Or) in L. set (P := standard_powers i l) in *.
  pose proof (sum_filter (keeps (hd 0 P)) P) as F. fold (eliminate P) in F. pose proof (filter_split_length (keeps (hd 0 P)) P) as FL. fold (eliminate P) in FL.
  assert (N : 0 <= sum (filter (fun x => negb (keeps (hd 0 P) x)) P)) by (apply sum_nonneg; intros x I; apply filter_In in I; destruct I as [I _]; apply Rlt_le, (standard_pos i l x I)).
  assert (U : sum (filter (fun x => negb (keeps (hd 0 P) x)) P) <= INR (length (filter (fun x => negb (keeps (hd 0 P) x)) P)) * Rpower 10 (-25 / 10)).
  { apply sum_bound. intros x I. apply filter_In in I. destruct I as [I J]. unfold keeps in J. destruct (Rle_dec _ _) as [B|B]; [discriminate|]. apply Rnot_le_lt in B. pose proof (ten_pos (-25 / 10)).
    destruct (standard_first i l So Or) as (p & r & E & _). fold P in E. rewrite E in B. cbn [hd] in B. assert (p <= 1) by (rewrite <- S1; apply single_le_sum; [intros y Q; exact (standard_pos i l y Q)|fold P; rewrite E; left; reflexivity]). nra. }
  replace (length (i_xs i) - length (eliminate P))%nat with (length (filter (fun x => negb (keeps (hd 0 P) x)) P)) by lia. lra.
Qed.
Lemma cos_one : forall x, cos x = 1 <-> exists n : Z, x = 2 * IZR n * PI.
Proof.
  intro x. split.
  - intro E. assert (S : sin (x / 2) = 0). { replace x with (2 * (x / 2)) in E by lra. rewrite cos_2a_sin in E. assert (sin (x / 2) * sin (x / 2) = 0) by lra. apply Rmult_integral in H. destruct H; assumption. }
    apply sin_eq_0_0 in S. destruct S as (n & S). exists n. lra.
  - intros (n & ->). replace (2 * IZR n * PI) with (2 * (IZR n * PI)) by ring. rewrite cos_2a_sin. rewrite (sin_eq_0_1 (IZR n * PI)); [lra|]. exists n. reflexivity.
Qed.
Lemma gap_rotate : forall l phi, gap (map (fun q => (fst q + phi, snd q)) l) = gap l.
Proof.
  intros l phi. unfold gap. rewrite map_map. apply sum_ext. intros a _. rewrite map_map. apply sum_ext. intros b _. cbn [fst snd]. do 3 f_equal. lra.
Qed.
Lemma gap_scale : forall l k, gap (map (fun q => (fst q, k * snd q)) l) = k ^ 2 * gap l.
Proof.
  intros l k. unfold gap. rewrite map_map. rewrite <- sum_mult. apply sum_ext. intros a _. rewrite map_map. rewrite <- sum_mult. apply sum_ext. intros b _. cbn [fst snd]. ring.
Qed.
Lemma sq_eq : forall a b, 0 <= a -> 0 <= b -> a ^ 2 = b ^ 2 -> a = b.
Proof. intros a b A B E. apply Rsqr_inj; try assumption. unfold Rsqr. lra. Qed.
Lemma powers_pos : forall l : list (R * R), l <> [] -> (forall q, In q l -> 0 < snd q) -> 0 < sum (map snd l).
Proof.
  intros l N H. apply sum_pos; [destruct l; [contradiction N; reflexivity|discriminate]|]. intros x I. apply in_map_iff in I. destruct I as (q & <- & I). apply H. exact I.
Qed.

(** ** Descending powers *)
Lemma descending_map : forall (f : R -> R) l, (forall a b, a <= b -> f b <= f a) -> ascending l -> descending (map f l).
Proof.
  intros f l M H. induction H as [|y r H IH F]; cbn; constructor; [exact IH|]. rewrite Forall_forall in *. intros z I. apply in_map_iff in I. destruct I as (w & <- & I). apply Rle_ge, M, F, I.
Qed.
Lemma descending_mono : forall (f : R -> R) l, (forall a b, a <= b -> f a <= f b) -> descending l -> descending (map f l).
Proof.
  intros f l M H. induction H as [|y r H IH F]; cbn; constructor; [exact IH|]. rewrite Forall_forall in *. intros z I. apply in_map_iff in I. destruct I as (w & <- & I). apply Rle_ge, M, Rge_le, F, I.
Qed.
Lemma descending_filter : forall f l, descending l -> descending (filter f l).
Proof.
  intros f l H. induction H as [|y r H IH F]; cbn; [constructor|]. destruct (f y); [|exact IH]. constructor; [exact IH|]. rewrite Forall_forall in *. intros z I. apply filter_In in I. apply F, I.
Qed.
Lemma combine_constant : forall (g : R -> R -> R) z (l zs : list R), length l = length zs -> (forall x, In x zs -> x = z) -> map (fun q => g (fst q) (snd q)) (combine l zs) = map (fun t => g t z) l.
Proof.
  intros g z l. induction l as [|t l IH]; intros [|y zs] L H; try discriminate; [reflexivity|]. cbn [combine map fst snd]. rewrite (H y (or_introl eq_refl)), IH; [reflexivity|injection L; auto|]. intros x I. apply H. right. exact I.
Qed.
Lemma normalised_descending : forall los k ps, 0 < k -> (forall p, In p ps -> 0 < p) -> descending ps -> descending (normalised los k ps).
Proof.
  intros los k ps K P D. destruct ps as [|p r]; [constructor|]. pose proof (sum_pos (p :: r) ltac:(discriminate) P) as S. unfold normalised. change (total (p :: r)) with (sum (p :: r)). destruct los.
  - inversion D as [|? ? D1 D2]; subst. assert (I1 : 0 < / ((1 + k) * sum (p :: r))) by (apply Rinv_0_lt_compat, Rmult_lt_0_compat; lra). constructor.
    + apply descending_mono; [|exact D1]. intros a b L. apply Rmult_le_compat_r; lra.
    + rewrite Forall_forall in *. intros x I. apply in_map_iff in I. destruct I as (q & <- & I). specialize (D2 q I). assert (0 < k / (1 + k)) by (apply Rdiv_lt_0_compat; lra). unfold Rdiv in *. nra.
  - apply descending_mono; [|exact D]. intros a b L. apply Rmult_le_compat_r; [|exact L]. left. apply Rinv_0_lt_compat. exact S.
Qed.
