(** Theorems about evaluators of radar detections (C98). *)
From Coq Require Import List Reals ZArith Lia Lra Bool Arith Permutation.
From Verif Require Import Base BaseLemmas Rot_Model Rot_Proofs Roc_Model Roc_Spec Roc_Proofs.
Import ListNotations.
Open Scope R_scope.

(** ** Detection probability: the last reception counts *)
Theorem C98_detection : forall before c,
  evaluate_detection None = Raise RuntimeError /\
  evaluate_detection (fold_left on_reception (before ++ [c]) None) = match c with None => Raise RuntimeError | Some n => Ok (Nat.ltb 0 n) end.
Proof.
  intros before c. split; [ reflexivity | ]. rewrite fold_left_app. cbn [fold_left]. unfold on_reception at 1. destruct c as [n | ]; [ | reflexivity ].
  cbn [evaluate_detection]. destruct n; reflexivity.
Qed.
Print Assumptions C98_detection.

(** ** Operating characteristics *)
(** The value of a drop under a hypothesis is the largest power of its cube *)
Theorem C98_values : forall h0 h1, (h0 <> [] /\ h1 <> [] -> exists a b, artifact h0 h1 = Ok (a, b) /\ is_largest h0 a /\ is_largest h1 b) /\
  (h0 = [] \/ h1 = [] -> artifact h0 h1 = Raise ValueError).
Proof.
  intros h0 h1. split.
  - intros [N0 N1]. destruct (maximum_spec _ N0) as [a [Ea Ha]]. destruct (maximum_spec _ N1) as [b [Eb Hb]]. exists a, b. unfold artifact. rewrite Ea, Eb. repeat split; try reflexivity; first [ apply Ha | apply Hb ].
  - unfold artifact. intros [-> | ->]; [ reflexivity | ]. destruct h0; reflexivity.
Qed.
Print Assumptions C98_values.
(** The curve of a section is made of the drops added for it, whatever was added for other sections and in whatever order: at equally spaced
    thresholds from the smallest to the largest value, the fractions of drops whose values reach the threshold. *)
Theorem C98_curve : forall n h s, let l := of_section s h in
  (l = [] -> to_array (roc_history n h) s = None) /\
  (l <> [] -> exists lo hi ps, is_smallest (all_values l) lo /\ is_largest (all_values l) hi /\ to_array (roc_history n h) s = Some ps /\ length ps = n /\
     forall i, (i < n)%nat -> nth i ps (0, 0) = (INR (reaching snd (threshold lo hi n i) l) / INR (length l), INR (reaching fst (threshold lo hi n i) l) / INR (length l))).
Proof.
  intros n h s l. unfold to_array, roc_history. rewrite add_sections, add_thresholds. cbn [new_roc sections num_thresholds app]. fold l. split.
  - intros ->. reflexivity.
  - intros H. destruct (curve_defined l n H) as [lo [hi [A [B E]]]]. exists lo, hi. eexists. split; [ exact A | ]. split; [ exact B | ]. split; [ exact E | ].
    split; [ rewrite map_length, seq_length; reflexivity | ]. intros i Hi. rewrite nth_mapseq by exact Hi. reflexivity.
Qed.
Print Assumptions C98_curve.
(** Probabilities are probabilities; both decrease with the threshold; the curve starts in (1, 1), and its last threshold is still reached. *)
Theorem C98_shape : forall l n ps, curve l n = Some ps ->
  length ps = n /\ List.Forall (fun p => 0 <= fst p <= 1 /\ 0 <= snd p <= 1) ps /\ decreasing (map fst ps) /\ decreasing (map snd ps) /\
  ((0 < n)%nat -> nth 0 ps (0, 0) = (1, 1)) /\
  ((1 < n)%nat -> 0 < fst (nth (n - 1) ps (0, 0)) \/ 0 < snd (nth (n - 1) ps (0, 0))).
Proof.
  intros l n ps H. assert (Hl : l <> []) by (intros ->; discriminate). destruct (curve_defined l n Hl) as [lo [hi [A [B E]]]]. rewrite E in H. injection H as <-.
  assert (P : (0 < length l)%nat) by (destruct l; [ congruence | cbn; lia ]). assert (Q : 0 < INR (length l)) by (apply lt_0_INR; exact P).
  assert (Hlh : lo <= hi) by (apply B; apply A).
  split; [ rewrite map_length, seq_length; reflexivity | ]. split; [ | split; [ | split; [ | split ] ] ].
  - apply Forall_forall. intros p Hp. apply in_map_iff in Hp as [i [<- Hi]]. cbn [fst snd]. split; apply ratio_bounds; try exact P; apply reaching_le.
  - intros i j Hij. rewrite map_map in *. rewrite map_length, seq_length in Hij. cbn [fst]. rewrite !nth_mapseq by lia. apply ratio_mono; [ | exact P ]. apply reaching_mono. apply threshold_mono; [ exact Hlh | lia ].
  - intros i j Hij. rewrite map_map in *. rewrite map_length, seq_length in Hij. cbn [snd]. rewrite !nth_mapseq by lia. apply ratio_mono; [ | exact P ]. apply reaching_mono. apply threshold_mono; [ exact Hlh | lia ].
  - intros Hn. rewrite nth_mapseq by exact Hn. cbv zeta. rewrite threshold_first.
    assert (forall v : R * R -> R, (forall a, In a l -> In (v a) (all_values l)) -> reaching v lo l = length l) as K by (intros v Hv; apply reaching_all; intros a Ha; apply A; apply Hv; exact Ha).
    rewrite !K; [ f_equal; field; lra | intros a Ha; unfold all_values; apply in_or_app; left; apply in_map; exact Ha | intros a Ha; unfold all_values; apply in_or_app; right; apply in_map; exact Ha ].
  - intros Hn. rewrite nth_mapseq by lia. cbv zeta. rewrite threshold_last by exact Hn. destruct B as [B _]. unfold all_values in B. apply in_app_iff in B as [B | B]; apply in_map_iff in B as [a [Ea Ha]]; [ right | left ]; cbn [fst snd];
      (apply Rmult_lt_0_compat; [ apply lt_0_INR; apply (reaching_some _ _ _ a Ha); lra | apply Rinv_0_lt_compat; exact Q ]).
Qed.
Print Assumptions C98_shape.
(** A target that never lowers the value never makes detections rarer than false alarms; without an effect both are equally likely. *)
Theorem C98_dominance : forall l n ps i, curve l n = Some ps -> (i < n)%nat ->
  ((forall a, In a l -> fst a <= snd a) -> snd (nth i ps (0, 0)) <= fst (nth i ps (0, 0))) /\
  ((forall a, In a l -> fst a = snd a) -> snd (nth i ps (0, 0)) = fst (nth i ps (0, 0))).
Proof.
  intros l n ps i H Hi. assert (Hl : l <> []) by (intros ->; discriminate). destruct (curve_defined l n Hl) as [lo [hi [A [B E]]]]. rewrite E in H. injection H as <-.
  assert (P : (0 < length l)%nat) by (destruct l; [ congruence | cbn; lia ]). rewrite nth_mapseq by exact Hi. cbv zeta. cbn [fst snd]. split.
  - intros K. apply ratio_mono; [ | exact P ]. apply reaching_dominated. exact K.
  - intros K. f_equal. f_equal. apply Nat.le_antisymm; apply reaching_dominated; intros a Ha; rewrite (K a Ha); lra.
Qed.
Print Assumptions C98_dominance.
(** The order of drops does not matter, nor do gain and offset of the powers. *)
Theorem C98_invariance : forall l n,
  (forall l', Permutation l l' -> curve l' n = curve l n) /\
  (forall k c, 0 < k -> curve (map (fun a => (k * fst a + c, k * snd a + c)) l) n = curve l n).
Proof.
  intros l n. destruct l as [ | a0 l0]; [ split; [ intros l' H; apply Permutation_nil in H; subst l'; reflexivity | reflexivity ] | ]. set (l := a0 :: l0). assert (Hl : l <> []) by discriminate. clearbody l.
  destruct (curve_defined l n Hl) as [lo [hi [A [B E]]]]. split.
  - intros l' Hp. assert (Hl' : l' <> []) by (intros ->; apply Hl; apply Permutation_nil; symmetry; exact Hp). destruct (curve_defined l' n Hl') as [lo' [hi' [A' [B' E']]]].
    assert (S : forall x, In x (all_values l') <-> In x (all_values l)) by (intros x; unfold all_values; split; intros Hx; (eapply Permutation_in; [ | exact Hx ]); apply Permutation_app; apply Permutation_map; [ symmetry | symmetry | | ]; exact Hp).
    assert (lo' = lo) by (apply (smallest_unique _ _ _ _ S A' A)). assert (hi' = hi) by (apply (largest_unique _ _ _ _ S B' B)). subst lo' hi'. rewrite E, E'. f_equal. apply map_ext. intros i. cbv zeta.
    rewrite !(reaching_perm _ _ l' l (Permutation_sym Hp)), (Permutation_length Hp). reflexivity.
  - intros k c Hk. set (g := fun a : R * R => (k * fst a + c, k * snd a + c)). assert (Hg : map g l <> []) by (destruct l; [ congruence | discriminate ]).
    destruct (curve_defined (map g l) n Hg) as [lo' [hi' [A' [B' E']]]].
    assert (S : forall x, In x (all_values (map g l)) <-> exists y, In y (all_values l) /\ x = k * y + c).
    { intros x. unfold all_values. rewrite !map_map, in_app_iff, !in_map_iff. split.
      - intros [[a [<- Ha]] | [a [<- Ha]]]; [ exists (fst a) | exists (snd a) ]; (split; [ apply in_or_app | reflexivity ]); [ left | right ]; apply in_map; exact Ha.
      - intros [y [Hy ->]]. apply in_app_iff in Hy as [Hy | Hy]; apply in_map_iff in Hy as [a [<- Ha]]; [ left | right ]; exists a; split; auto. }
    assert (lo' = k * lo + c). { destruct A as [A1 A2], A' as [A1' A2']. apply S in A1' as [y [Hy ->]]. assert (lo <= y) by (apply A2; exact Hy). assert (k * y + c <= k * lo + c) by (apply A2'; apply S; exists lo; split; [ exact A1 | reflexivity ]). nra. }
    assert (hi' = k * hi + c). { destruct B as [B1 B2], B' as [B1' B2']. apply S in B1' as [y [Hy ->]]. assert (y <= hi) by (apply B2; exact Hy). assert (k * hi + c <= k * y + c) by (apply B2'; apply S; exists hi; split; [ exact B1 | reflexivity ]). nra. }
    subst lo' hi'. rewrite E, E'. f_equal. apply map_ext. intros i. cbv zeta. rewrite map_length.
    replace (threshold (k * lo + c) (k * hi + c) n i) with (k * threshold lo hi n i + c) by (unfold threshold; destruct (Nat.eqb n 1); [ ring | unfold Rdiv; ring ]).
    rewrite !(reaching_affine _ g k c) by (try exact Hk; reflexivity). reflexivity.
Qed.
Print Assumptions C98_invariance.
(** Hypotheses whose values are further apart than one step of the thresholds are told apart by one of them ... *)
Theorem C98_separation : forall l n ps lo hi m0 m1, curve l n = Some ps -> (1 < n)%nat -> is_smallest (all_values l) lo -> is_largest (all_values l) hi ->
  (forall a, In a l -> fst a <= m0 /\ m1 <= snd a) -> m0 < m1 -> (hi - lo) / INR (n - 1) <= m1 - m0 -> In (1, 0) ps.
Proof.
  intros l n ps lo hi m0 m1 H Hn A B Hs Hm Hstep. assert (Hl : l <> []) by (intros ->; discriminate). destruct (curve_defined l n Hl) as [lo' [hi' [A' [B' E]]]].
  assert (lo' = lo) by (apply (smallest_unique (all_values l) (all_values l)); [ reflexivity | exact A' | exact A ]). assert (hi' = hi) by (apply (largest_unique (all_values l) (all_values l)); [ reflexivity | exact B' | exact B ]). subst lo' hi'. rewrite E in H. injection H as <-.
  assert (P : 0 < INR (length l)) by (apply lt_0_INR; destruct l; [ congruence | cbn; lia ]).
  destruct l as [ | a0 l0]; [ congruence | ]. set (l := a0 :: l0) in *. assert (Ha0 : In a0 l) by (left; reflexivity).
  assert (L0 : lo <= m0). { destruct (Hs a0 Ha0) as [X _]. assert (lo <= fst a0) by (apply A; unfold all_values; apply in_or_app; left; apply in_map; exact Ha0). lra. }
  assert (L1 : m1 <= hi). { destruct (Hs a0 Ha0) as [_ X]. assert (snd a0 <= hi) by (apply B; unfold all_values; apply in_or_app; right; apply in_map; exact Ha0). lra. }
  destruct (first_above (threshold lo hi n) m0 (n - 1)) as [i [Hi [K1 K2]]]; [ rewrite threshold_last by exact Hn; lra | rewrite threshold_first; exact L0 | ].
  apply in_map_iff. exists (S i). split; [ | apply in_seq; lia ]. cbv zeta. rewrite reaching_all, reaching_none.
  - cbn [INR]. f_equal; field; lra.
  - intros a Ha. destruct (Hs a Ha). lra.
  - intros a Ha. destruct (Hs a Ha). rewrite threshold_step by exact Hn. lra.
Qed.
Print Assumptions C98_separation.
(** ... but hypotheses that are perfectly told apart by their values need not be on the curve. *)
Theorem C98_separation_refuted : exists l n ps, curve l n = Some ps /\ (1 < n)%nat /\ (forall a b, In a l -> In b l -> fst a < snd b) /\ ~ In (1, 0) ps.
Proof.
  exists [(0, 2); (1, 10)], 3%nat. destruct (curve_defined [(0, 2); (1, 10)] 3 ltac:(discriminate)) as [lo [hi [[A1 A2] [[B1 B2] E]]]]. eexists. split; [ exact E | ]. split; [ lia | ].
  assert (lo = 0). { assert (lo <= 0) by (apply A2; cbn; auto). cbn in A1. intuition lra. } assert (hi = 10). { assert (10 <= hi) by (apply B2; cbn; auto). cbn in B1. intuition lra. } subst lo hi.
  split; [ intros a b [<- | [<- | []]] [<- | [<- | []]]; cbn; lra | ]. clear.
  cbn [seq map length]. assert (T0 : threshold 0 10 3 0 = 0) by (unfold threshold; cbn; lra). assert (T1 : threshold 0 10 3 1 = 5) by (unfold threshold; cbn; lra). assert (T2 : threshold 0 10 3 2 = 10) by (unfold threshold; cbn; lra).
  cbv zeta. rewrite T0, T1, T2. cbn [reaching fst snd]. destruct (Rle_dec 0 0); [ | lra ]. destruct (Rle_dec 5 2); [ lra | ]. destruct (Rle_dec 10 2); [ lra | ].
  destruct (Rle_dec 0 1), (Rle_dec 5 0), (Rle_dec 5 1), (Rle_dec 5 10), (Rle_dec 10 0), (Rle_dec 10 1), (Rle_dec 10 10), (Rle_dec 0 10), (Rle_dec 0 2); try lra; cbn [Nat.add INR].
  intros [K | [K | [K | []]]]; [ apply (f_equal snd) in K; cbn in K; lra | apply (f_equal fst) in K; cbn in K; lra | apply (f_equal fst) in K; cbn in K; lra ].
Qed.
Print Assumptions C98_separation_refuted.
(** Two scenarios are compared drop by drop *)
Theorem C98_scenarios : forall h0 h1 n k,
  (n = 0%nat -> from_scenarios h0 h1 n k = Raise ValueError) /\
  ((0 < n)%nat -> (forall i, (i < n)%nat -> h0 i <> [] /\ h1 i <> []) -> exists r, from_scenarios h0 h1 n k = Ok r /\ num_thresholds r = k /\ length (sections r 0) = n /\
     forall i, (i < n)%nat -> is_largest (h0 i) (fst (nth i (sections r 0) (0, 0))) /\ is_largest (h1 i) (snd (nth i (sections r 0) (0, 0)))) /\
  (forall i, (i < n)%nat -> h0 i = [] \/ h1 i = [] -> from_scenarios h0 h1 n k = Raise ValueError).
Proof.
  intros h0 h1 n k. split; [ intros ->; reflexivity | ]. split.
  - intros Hn H. unfold from_scenarios. destruct (Nat.ltb_spec n 1); [ lia | ]. destruct (collect_ok n (new_roc k) h0 h1 0) as [r [E [T [l [S [L K]]]]]]; [ intros i Hi; apply H; lia | ].
    exists r. cbn [new_roc sections app] in S. rewrite S. split; [ exact E | ]. split; [ exact T | ]. split; [ exact L | exact K ].
  - intros i Hi H. unfold from_scenarios. destruct (Nat.ltb_spec n 1); [ reflexivity | ]. apply (collect_fails n _ h0 h1 0 i); [ lia | exact H ].
Qed.
Print Assumptions C98_scenarios.
(** Two campaigns of a file are compared as far as both go, and as many drops as requested; campaigns without drops are refused. *)
Theorem C98_files : forall h0 h1 m k, (forall c, In c h0 \/ In c h1 -> c <> []) ->
  let n := match m with None => Nat.min (length h0) (length h1) | Some m => Nat.min m (Nat.min (length h0) (length h1)) end in
  (n = 0%nat -> from_file h0 h1 m k = Raise ValueError) /\
  ((0 < n)%nat -> exists r, from_file h0 h1 m k = Ok r /\ length (sections r 0) = n /\
     forall i, (i < n)%nat -> is_largest (nth i h0 []) (fst (nth i (sections r 0) (0, 0))) /\ is_largest (nth i h1 []) (snd (nth i (sections r 0) (0, 0)))).
Proof.
  intros h0 h1 m k Hc n. unfold from_file. fold n. split; [ intros ->; reflexivity | ]. intros Hn.
  destruct (C98_scenarios (fun i => nth i h0 []) (fun i => nth i h1 []) n k) as [_ [A _]]. destruct (A Hn) as [r [E [_ [L K]]]].
  - intros i Hi. assert ((i < length h0)%nat /\ (i < length h1)%nat) as [X Y] by (unfold n in Hi; destruct m; lia). split; apply Hc; [ left | right ]; apply nth_In; assumption.
  - exists r. split; [ exact E | ]. split; [ exact L | exact K ].
Qed.
Print Assumptions C98_files.
(** A replayed scenario never yields a curve, whatever was recorded *)
Theorem C98_replayed_scenarios_refuted : forall h0 h1 m r s, from_scenario h0 h1 m = Ok r -> to_array r s = None.
Proof. intros h0 h1 m r s H. unfold from_scenario in H. destruct (mapM _ _) as [a | e]; cbn [bind] in H; [ | discriminate ]. injection H as <-. reflexivity. Qed.
Print Assumptions C98_replayed_scenarios_refuted.
(** The number of thresholds of the evaluator is ignored *)
Theorem C98_thresholds_refuted : forall k, num_thresholds (initialize_result k) = 101%nat.
Proof. reflexivity. Qed.
Print Assumptions C98_thresholds_refuted.
(** What is plotted are two points, and not points of the curve *)
Theorem C98_plot_refuted : exists l n ps, curve l n = Some ps /\ length (plotted ps) <> n /\ exists pfa pd, In (pfa, pd) (plotted ps) /\ ~ In (pd, pfa) ps.
Proof.
  exists [(0, 0); (0, 2)], 3%nat. destruct (curve_defined [(0, 0); (0, 2)] 3 ltac:(discriminate)) as [lo [hi [[A1 A2] [[B1 B2] E]]]]. eexists. split; [ exact E | ]. split; [ cbn; lia | ].
  assert (lo = 0). { assert (lo <= 0) by (apply A2; cbn; auto). cbn in A1. intuition lra. } assert (hi = 2). { assert (2 <= hi) by (apply B2; cbn; auto). cbn in B1. intuition lra. } subst lo hi. clear.
  cbn [seq map length]. assert (T0 : threshold 0 2 3 0 = 0) by (unfold threshold; cbn; lra). assert (T1 : threshold 0 2 3 1 = 1) by (unfold threshold; cbn; lra). assert (T2 : threshold 0 2 3 2 = 2) by (unfold threshold; cbn; lra).
  cbv zeta. rewrite T0, T1, T2. cbn [reaching fst snd].
  destruct (Rle_dec 0 0), (Rle_dec 0 2), (Rle_dec 1 0), (Rle_dec 1 2), (Rle_dec 2 0), (Rle_dec 2 2); try lra; cbn [Nat.add INR].
  unfold plotted. cbn [nth fst snd]. eexists _, _. split; [ left; reflexivity | ].
  intros [K | [K | [K | []]]]; injection K; intros; lra.
Qed.
Print Assumptions C98_plot_refuted.

(** ** Root mean square errors *)
(** The error of a section is the root of the mean squared distance over all pairs of a detection and a target of the same drop; without
    pairs there is none, and a single drop without pairs has no scalar. *)
Theorem C98_rms : forall h s, let l := of_section s h in let pairs := list_sum (map pair_count l) in
  (pairs = 0%nat -> rms_array (rms_history h) s = None) /\
  ((0 < pairs)%nat -> exists e, rms_array (rms_history h) s = Some e /\ 0 <= e /\ e ^ 2 * INR pairs = rsum pair_error l /\
     (e = 0 <-> forall points truths p t, In (points, truths) l -> In p points -> In t truths -> p = t)).
Proof.
  intros h s l pairs. unfold rms_array. rewrite rms_sections. fold l. fold pairs. cbn [fst snd]. split.
  - intros ->. reflexivity.
  - intros H. destruct (Nat.eqb_spec pairs 0); [ lia | ]. assert (P : 0 < INR pairs) by (apply lt_0_INR; exact H).
    assert (N : forall d, 0 <= pair_error d) by (intros d; unfold pair_error; apply rsum_nonneg; intros p; apply rsum_nonneg; intros t; apply pow2_ge_0).
    assert (Q : 0 <= rsum pair_error l) by (apply rsum_nonneg; exact N).
    assert (D : 0 <= rsum pair_error l / INR pairs) by (apply Rmult_le_pos; [ exact Q | left; apply Rinv_0_lt_compat; exact P ]).
    exists (sqrt (rsum pair_error l / INR pairs)). split; [ reflexivity | ]. split; [ apply sqrt_pos | ]. split; [ rewrite pow2_sqrt by exact D; field; lra | ]. split.
    + intros E points truths p t Hd Hp Ht. apply sqrt_eq_0 in E; [ | exact D ]. assert (E0 : rsum pair_error l = 0) by (apply Rmult_integral in E as [E | E]; [ exact E | pose proof (Rinv_0_lt_compat _ P); lra ]).
      assert (Z := proj1 (rsum_zero pair_error l N) E0 _ Hd). unfold pair_error in Z. cbn [fst snd] in Z.
      assert (Z1 := proj1 (rsum_zero _ points (fun p => rsum_nonneg _ truths (fun t => pow2_ge_0 _))) Z _ Hp). cbv beta in Z1. assert (Z2 := proj1 (rsum_zero _ truths (fun t => pow2_ge_0 _)) Z1 _ Ht). cbv beta in Z2.
      assert (Z3 : norm (vsub p t) = 0) by (apply Rsqr_0_uniq; unfold Rsqr; lra). apply norm_zero in Z3. destruct p as [px py pz], t as [tx ty tz]. unfold vsub, zero in Z3; cbn in Z3; injection Z3 as A B C; f_equal; lra.
    + intros K. assert (E0 : rsum pair_error l = 0). { apply (rsum_zero pair_error l N). intros [points truths] Hd. unfold pair_error. cbn [fst snd]. apply rsum_zero; [ intros p; apply rsum_nonneg; intros t; apply pow2_ge_0 | ]. intros p Hp. apply rsum_zero; [ intros t; apply pow2_ge_0 | ]. intros t Ht.
        rewrite (K _ _ p t Hd Hp Ht). assert (norm (vsub t t) = 0) as -> by (apply Rsqr_0_uniq; unfold Rsqr; rewrite norm_sqr; unfold vsub, dot; cbn [vx vy vz]; ring). ring. }
      rewrite E0. unfold Rdiv. rewrite Rmult_0_l. apply sqrt_0.
Qed.
Print Assumptions C98_rms.
Theorem C98_rms_scalar : forall points truths,
  (points = [] \/ truths = [] -> to_scalar (rms_artifact points truths) = Raise ZeroDivisionError) /\
  (points <> [] -> truths <> [] -> exists e, to_scalar (rms_artifact points truths) = Ok e /\ rms_array (rms_history [(0%nat, (points, truths))]) 0 = Some e).
Proof.
  intros points truths. split.
  - intros [-> | ->]; unfold to_scalar, rms_artifact; cbn [fst length]; [ reflexivity | ]. rewrite Nat.mul_0_r. reflexivity.
  - intros Hp Ht. unfold to_scalar, rms_array, rms_history, add_rms, rms_artifact, new_rms. cbn [fold_left fst snd Nat.eqb]. rewrite Rplus_0_l, Nat.add_0_l.
    assert ((length points * length truths)%nat <> 0%nat) as N by (destruct points, truths; try congruence; cbn; lia). destruct (Nat.eqb_spec (length points * length truths) 0); [ congruence | ]. eexists. split; reflexivity.
Qed.
Print Assumptions C98_rms_scalar.
(** Two targets, each detected exactly where it is, have a positive error *)
Theorem C98_rms_perfect_detection_refuted : forall p t, p <> t -> exists e, to_scalar (rms_artifact [p; t] [p; t]) = Ok e /\ 0 < e.
Proof.
  intros p t H. destruct (C98_rms [(0%nat, ([p; t], [p; t]))] 0) as [_ A]. destruct A as [e [E [N [_ Z]]]]; [ cbn; lia | ].
  destruct (C98_rms_scalar [p; t] [p; t]) as [_ B]. destruct B as [e' [E1 E2]]; try discriminate. exists e'. split; [ exact E1 | ]. rewrite E in E2. injection E2 as <-.
  destruct (Req_dec e 0) as [-> | K]; [ exfalso | lra ]. apply H. apply (proj1 Z eq_refl [p; t] [p; t] p t); cbn; auto.
Qed.
Print Assumptions C98_rms_perfect_detection_refuted.
(** Detections are relative to the radar while targets are not: a single target located without error is reported to be off by as much as
    the radar is off the origin *)
Theorem C98_rms_displaced_refuted : forall radar target, to_scalar (rms_artifact [vsub target radar] (truths_of [Some target; None])) = Ok (norm radar).
Proof.
  intros radar target. unfold to_scalar, rms_artifact, square_errors, truths_of. cbn [flat_map map app length fst snd Nat.mul Nat.add Nat.eqb fold_left INR]. f_equal.
  assert (norm (vsub (vsub target radar) target) ^ 2 = norm radar ^ 2) as ->. { rewrite <- !Rsqr_pow2. unfold Rsqr. rewrite !norm_sqr. destruct target as [a b c], radar as [d e f]. unfold vsub, dot. cbn [vx vy vz]. ring. }
  replace ((0 + norm radar ^ 2) / 1) with (norm radar ^ 2) by field. rewrite <- Rsqr_pow2. apply sqrt_Rsqr. unfold norm. apply sqrt_pos.
Qed.
Print Assumptions C98_rms_displaced_refuted.

Example C98_met : exists ps, to_array (roc_history 5 [(0%nat, (1, 3)); (1%nat, (7, 7)); (0%nat, (2, 4))]) 0 = Some ps /\ length ps = 5%nat /\ nth 0 ps (0, 0) = (1, 1) /\ In (1, 0) ps.
Proof.
  destruct (C98_curve 5 [(0%nat, (1, 3)); (1%nat, (7, 7)); (0%nat, (2, 4))] 0) as [_ A]. cbn [of_section filter fst snd map Nat.eqb] in A. destruct A as [lo [hi [ps [A1 [A2 [E [L _]]]]]]]; [ discriminate | ].
  assert (C : curve [(1, 3); (2, 4)] 5 = Some ps) by (rewrite <- E; reflexivity).
  exists ps. split; [ exact E | ]. split; [ exact L | ]. split; [ apply (C98_shape _ _ _ C); lia | ].
  assert (1 <= lo). { destruct A1 as [X _]. cbn in X. intuition lra. } assert (hi <= 4). { destruct A2 as [X _]. cbn in X. intuition lra. }
  apply (C98_separation _ _ _ lo hi 2 3 C); try assumption; try lia; try lra.
  - intros a [<- | [<- | []]]; cbn; lra.
  - cbn. lra.
Qed.
Example C98_rms_met : exists e, rms_array (rms_history [(0%nat, ([V 1 0 0], [V 1 0 0; V 0 0 0]))]) 0 = Some e /\ e ^ 2 * 2 = 1.
Proof.
  destruct (C98_rms [(0%nat, ([V 1 0 0], [V 1 0 0; V 0 0 0]))] 0) as [_ A]. destruct A as [e [E [_ [S _]]]]; [ cbn; lia | ]. exists e. split; [ exact E | ].
  cbn [of_section filter fst snd map Nat.eqb list_sum fold_right pair_count length Nat.mul Nat.add INR rsum pair_error] in S.
  assert (norm (vsub (V 1 0 0) (V 1 0 0)) ^ 2 = 0) as K1 by (rewrite <- Rsqr_pow2; unfold Rsqr; rewrite norm_sqr; unfold vsub, dot; cbn [vx vy vz]; ring).
  assert (norm (vsub (V 1 0 0) (V 0 0 0)) ^ 2 = 1) as K2 by (rewrite <- Rsqr_pow2; unfold Rsqr; rewrite norm_sqr; unfold vsub, dot; cbn [vx vy vz]; ring).
  rewrite K1, K2 in S. lra.
Qed.
