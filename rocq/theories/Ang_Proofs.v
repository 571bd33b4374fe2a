(** Proofs on the angles of rays. *)
From Coq Require Import List Reals Permutation Lra Lia.
From Verif Require Import Base BaseLemmas Rot_Model Rot_Spec Rot_Proofs Ang_Model Ang_Spec.
Import ListNotations.
Open Scope R_scope.

Lemma total_perm a b : Permutation a b -> total a = total b.
Proof. unfold total. induction 1; cbn [fold_right]; lra. Qed.
Lemma mean_perm a b : Permutation a b -> mean a = mean b.
Proof. intros H. unfold mean. rewrite (total_perm _ _ H), (Permutation_length H). reflexivity. Qed.

Lemma closest_spec n t : forall best before, (forall e, In e before -> Rabs (fst best - n) < Rabs (fst e - n)) ->
  forall mid, (forall e, In e mid -> Rabs (fst best - n) <= Rabs (fst e - n)) ->
  exists b' a', before ++ best :: mid ++ t = b' ++ closest best n t :: a' /\
    (forall e, In e b' -> Rabs (fst (closest best n t) - n) < Rabs (fst e - n)) /\ (forall e, In e a' -> Rabs (fst (closest best n t) - n) <= Rabs (fst e - n)).
Proof.
  induction t as [|e t IH]; intros best before Hb mid Hm.
  - exists before, mid. cbn. rewrite app_nil_r. repeat split; assumption.
  - cbn [closest]. destruct (Rlt_dec (Rabs (fst e - n)) (Rabs (fst best - n))) as [L|L].
    + destruct (IH e (before ++ best :: mid)) with (mid := @nil (R * R)) as (b' & a' & E & H1 & H2).
      * intros x Hx. apply in_app_or in Hx. destruct Hx as [Hx|[->|Hx]]; [specialize (Hb x Hx); lra | lra | specialize (Hm x Hx); lra].
      * intros x [].
      * exists b', a'. split; [|split; assumption]. rewrite <- E. rewrite <- app_assoc. reflexivity.
    + destruct (IH best before Hb (mid ++ [e])) as (b' & a' & E & H1 & H2).
      * intros x Hx. apply in_app_or in Hx. destruct Hx as [Hx|[->|[]]]; [apply Hm; exact Hx | lra].
      * exists b', a'. split; [|split; assumption]. rewrite <- E. rewrite <- app_assoc. reflexivity.
Qed.
Lemma table_scale_spec t n : t <> [] -> closest_row t n (table_scale t n).
Proof.
  destruct t as [|e t]; [congruence|]. intros _. cbn [table_scale].
  destruct (closest_spec (INR n) t e [] ltac:(intros x []) [] ltac:(intros x [])) as (b & a & E & H1 & H2). cbn [app] in E.
  exists (fst (closest e (INR n) t)), b, a. rewrite <- surjective_pairing. repeat split; assumption.
Qed.

Lemma fold_max_ge l : forall a, a <= fold_left Rmax l a /\ forall x, In x l -> x <= fold_left Rmax l a.
Proof.
  induction l as [|y l IH]; intros a; cbn; [split; [lra | tauto]|].
  destruct (IH (Rmax a y)) as [A B]. split; [pose proof (Rmax_l a y); lra|].
  intros x [->|H]; [pose proof (Rmax_r a x); lra | apply B; exact H].
Qed.
Lemma fold_max_in l : forall a, fold_left Rmax l a = a \/ In (fold_left Rmax l a) l.
Proof.
  induction l as [|y l IH]; intros a; cbn; [left; reflexivity|].
  destruct (IH (Rmax a y)) as [E|H]; [|right; right; exact H].
  rewrite E. unfold Rmax. destruct Rle_dec; [right; left; reflexivity | left; reflexivity].
Qed.
Lemma peak_largest l : l <> [] -> largest l (peak l).
Proof.
  destruct l as [|x l]; [congruence|]. intros _. cbn [peak]. destruct (fold_max_ge l x) as [A B]. split.
  - destruct (fold_max_in l x) as [->|H]; [left; reflexivity | right; exact H].
  - intros y [->|H]; [exact A | apply B; exact H].
Qed.
Lemma largest_unique l a b : largest l a -> largest l b -> a = b.
Proof. intros [A1 A2] [B1 B2]. pose proof (A2 b B1). pose proof (B2 a A1). lra. Qed.
Lemma ln_flip p m : 0 < p -> 0 < m -> - ln (p / m) = ln (m / p).
Proof.
  intros P M. replace (m / p) with (/ (p / m)) by (field; lra). rewrite ln_Rinv; [reflexivity | apply Rdiv_lt_0_compat; assumption].
Qed.

(** Rays around their centre *)
Lemma total_spread s c k : total (map (fun x => k * x) (spread_out s c)) = 20 * (k * c).
Proof. unfold spread_out, offsets, half_offsets, total. cbn [flat_map app map fold_right]. field. Qed.
Lemma squares_spread s c : total (map (fun x => (x - deg c) ^ 2) (map (fun x => PI / 180 * x) (spread_out s c))) = 20 * ((1 + 7684 / 100000000) * deg s ^ 2).
Proof.
  unfold spread_out, offsets, half_offsets, total, deg. cbn [flat_map app map fold_right]. field.
Qed.
Lemma length_spread s c : length (spread_out s c) = 20%nat. Proof. reflexivity. Qed.
Lemma around_spread s c : around (map (fun x => PI / 180 * x) (spread_out s c)) s c.
Proof.
  unfold around. rewrite map_length, length_spread. split; [reflexivity|]. split.
  - unfold mean. rewrite total_spread, map_length, length_spread. unfold deg. rewrite INR_IZR_INZ. cbn [Z.of_nat Pos.of_succ_nat Pos.succ]. field.
  - exists (1 + 7684 / 100000000). split; [lra|]. unfold mean. rewrite squares_spread, !map_length, length_spread.
    rewrite INR_IZR_INZ. cbn [Z.of_nat Pos.of_succ_nat Pos.succ]. field.
Qed.
Lemma around_perm a b s c : Permutation a b -> around b s c -> around a s c.
Proof.
  intros P (L & M & v & Hv & V). split; [rewrite (Permutation_length P); exact L|]. split; [rewrite (mean_perm _ _ P); exact M|].
  exists v. split; [exact Hv|]. rewrite <- V. apply mean_perm. apply Permutation_map. exact P.
Qed.
Lemma nth_list (l : list R) : map (fun j => nth j l 0) (seq 0 (length l)) = l.
Proof.
  apply nth_ext with (d := 0) (d' := 0); [rewrite map_length, seq_length; reflexivity|].
  intros n Hn. rewrite map_length, seq_length in Hn. rewrite nth_indep with (d' := nth 0 l 0) by (rewrite map_length, seq_length; exact Hn).
  rewrite (map_nth (fun j => nth j l 0)). rewrite seq_nth by exact Hn. reflexivity.
Qed.
Lemma take_row a idx n i : length a = n -> coupled n idx -> (i < n)%nat -> length (nth i a []) = 20%nat -> Permutation (nth i (take a idx) []) (nth i a []).
Proof.
  intros La [Li Pi] Hi L20. unfold take.
  assert (Lc : (i < length (combine a idx))%nat) by (rewrite combine_length; lia).
  rewrite nth_indep with (d' := (fun q : list R * list nat => map (fun j => nth j (fst q) 0) (snd q)) (nil, nil)) by (rewrite map_length; exact Lc).
  rewrite (map_nth (fun q : list R * list nat => map (fun j => nth j (fst q) 0) (snd q))). rewrite combine_nth by lia. cbn [fst snd].
  eapply Permutation_trans; [apply Permutation_map, Pi, nth_In; lia|]. rewrite <- L20, nth_list. apply Permutation_refl.
Qed.
Lemma take_length a idx n : length a = n -> coupled n idx -> length (take a idx) = n.
Proof. intros La [Li _]. unfold take. rewrite map_length, combine_length. lia. Qed.

(** Centres *)
Lemma nth_centres los angle spread off towards c n i : same_clusters n c -> (i < n)%nat ->
  length (centres los angle spread off towards c) = n /\
  nth i (centres los angle spread off towards c) 0 =
  centred los towards (fun j => nth j (signs c) 0 * angle (nth j (powers c) 0) + spread / 7 * nth j (variations c) 0 + off) i.
Proof.
  intros (L1 & L2 & L3 & _) Hi. unfold centres.
  set (f := fun q : R * R * R => snd (fst q) * angle (fst (fst q)) + spread / 7 * snd q + off).
  set (l := combine (combine (powers c) (signs c)) (variations c)).
  assert (Ll : length l = n) by (unfold l; rewrite !combine_length; lia).
  assert (N : forall j, (j < n)%nat -> nth j (map f l) 0 = nth j (signs c) 0 * angle (nth j (powers c) 0) + spread / 7 * nth j (variations c) 0 + off).
  { intros j Hj. rewrite nth_indep with (d' := f (0, 0, 0)) by (rewrite map_length; lia). rewrite map_nth. unfold l.
    rewrite combine_nth by (rewrite combine_length; lia). rewrite combine_nth by lia. reflexivity. }
  split; [rewrite !map_length; exact Ll|].
  set (g := fun a => a + (if los then towards - nth 0 (map f l) 0 else towards)).
  rewrite nth_indep with (d' := g 0) by (rewrite !map_length; lia). rewrite (map_nth g). unfold g.
  rewrite (N i Hi), (N 0%nat ltac:(lia)). unfold centred. destruct los; ring.
Qed.
Lemma nth_rows s (cs : list R) i : (i < length cs)%nat ->
  nth i (radians (map (spread_out s) cs)) [] = map (fun x => PI / 180 * x) (spread_out s (nth i cs 0)).
Proof.
  intros H. unfold radians. rewrite map_map.
  rewrite nth_indep with (d' := map (fun x => PI / 180 * x) (spread_out s 0)) by (rewrite map_length; exact H).
  rewrite (map_nth (fun x => map (fun x0 => PI / 180 * x0) (spread_out s x))). reflexivity.
Qed.
Lemma coupled_row s cs idx n i : length cs = n -> coupled n idx -> (i < n)%nat ->
  around (nth i (take (radians (map (spread_out s) cs)) idx) []) s (nth i cs 0).
Proof.
  intros L C H. eapply around_perm; [apply take_row with (n := n); try assumption|].
  - unfold radians. rewrite !map_length. exact L.
  - rewrite nth_rows by lia. rewrite map_length. apply length_spread.
  - rewrite nth_rows by lia. apply around_spread.
Qed.

(** The local direction *)
Lemma local_direction p q : rigid p -> translation q <> translation p ->
  exists v, transform_direction (invert p) (vsub (translation q) (translation p)) true = Ok v /\
    let '(a, z) := to_spherical v in looks p q a z /\ 0 <= z <= PI.
Proof.
  intros Hp N. unfold transform_direction, from_cartesian, rotate_direction. cbn [rotation invert].
  set (w := vsub (translation q) (translation p)).
  assert (Pm : proper (minv (rotation p))) by (apply proper_minv; exact Hp).
  assert (Nw : norm (mv (minv (rotation p)) w) = norm w) by (unfold norm; rewrite dot_proper by exact Pm; reflexivity).
  assert (N0 : norm w <> 0).
  { intros Z. apply N. apply norm_zero in Z. unfold w in Z. destruct (translation q) as [q1' q2' q3'], (translation p) as [p1 p2 p3].
    unfold vsub, zero in Z. cbn [vx vy vz] in Z. inversion Z. f_equal; lra. }
  rewrite Nw. destruct (Req_EM_T (norm w) 0) as [Z|Z]; [contradiction|]. eexists. split; [reflexivity|].
  set (v := vscale (/ norm w) (mv (minv (rotation p)) w)).
  assert (U : dot v v = 1).
  { unfold v. rewrite <- Nw. apply normalised. rewrite Nw. exact N0. }
  pose proof (spherical_write v U) as W. pose proof (acos_bound (vz v)) as Bz. unfold to_spherical in *. split; [|exact Bz]. unfold looks. rewrite W. unfold v. fold w.
  assert (D : det (rotation p) <> 0) by (destruct Hp as [_ ->]; lra).
  pose proof (minv_r (rotation p) D) as I.
  assert (E : mv (rotation p) (vscale (/ norm w) (mv (minv (rotation p)) w)) = vscale (/ norm w) (mv (mm (rotation p) (minv (rotation p))) w)).
  { generalize (minv (rotation p)). generalize (/ norm w). intros k B. apply vec_eq; unfold mv, vscale, mm; cbn; ring. }
  rewrite E, I. apply vec_eq; unfold mv, vscale, eye; cbn; ring.
Qed.
Lemma closest_row_unique t n v w : closest_row t n v -> closest_row t n w -> v = w.
Proof.
  intros (x & b & a & E & B & A) (x' & b' & a' & E' & B' & A'). rewrite E in E'. apply app_eq_app in E'. destruct E' as (l & [[E1 E2]|[E1 E2]]).
  - destruct l as [|e l]; cbn in E2; inversion E2; subst; [reflexivity|]. exfalso.
    specialize (B (x', w)). specialize (A' (x, v)). cbn [fst] in *.
    assert (In (x', w) (b' ++ (x', w) :: l)) by (apply in_or_app; right; left; reflexivity).
    assert (In (x, v) (l ++ (x, v) :: a)) by (apply in_or_app; right; left; reflexivity). specialize (B H). specialize (A' H0). lra.
  - destruct l as [|e l]; cbn in E2; inversion E2; subst; [reflexivity|]. exfalso.
    specialize (B' (x, v)). specialize (A (x', w)). cbn [fst] in *.
    assert (In (x, v) (b ++ (x, v) :: l)) by (apply in_or_app; right; left; reflexivity).
    assert (In (x', w) (l ++ (x', w) :: a')) by (apply in_or_app; right; left; reflexivity). specialize (B' H). specialize (A H0). lra.
Qed.
Lemma azimuth_factor_pos k : -20 <= k -> 0 < 11035 / 10000 - 28 / 1000 * k - 2 / 1000 * k ^ 2 + 1 / 10000 * k ^ 3.
Proof.
  intros H. destruct (Rle_lt_dec k 0) as [L|L].
  - nra.
  - (* minimum near 18.4 *) assert (0 <= (k - 184 / 10) ^ 2 * (k + 168 / 10)) by (apply Rmult_le_pos; [apply pow2_ge_0 | lra]). nra.
Qed.
Lemma zenith_factor_pos k : -99 / 10 <= k -> 0 < 13086 / 10000 + 339 / 10000 * k - 77 / 10000 * k ^ 2 + 2 / 10000 * k ^ 3.
Proof.
  intros H. destruct (Rle_lt_dec k 0) as [L|L].
  - assert (0 <= (k + 99 / 10) * (- k)) by (apply Rmult_le_pos; lra). assert (0 <= (k + 99 / 10) * (k ^ 2)) by (apply Rmult_le_pos; [lra | apply pow2_ge_0]). nra.
  - assert (0 <= (k - 2323 / 100) ^ 2 * (k + 80 / 10)) by (apply Rmult_le_pos; [apply pow2_ge_0 | lra]). nra.
Qed.

Lemma looks_shift p q a z a' z' : looks p q a z -> a' = a -> z' = z -> looks p q a' z'.
Proof. intros H -> ->. exact H. Qed.
Lemma deg_back x : deg (180 * x / PI) = x.
Proof. unfold deg. field. apply PI_neq0. Qed.
Lemma deg_plus a b : deg (a + b) = deg a + deg b. Proof. unfold deg. ring. Qed.
Lemma deg_lt a b : a < b -> deg a < deg b.
Proof. intros. unfold deg. apply Rmult_lt_compat_l; [pose proof PI_RGT_0; lra | assumption]. Qed.
Lemma azimuth_scale_range n v : closest_row azimuth_scales n v -> 779 / 1000 <= v <= 1358 / 1000.
Proof.
  intros (x & b & a & E & _). assert (I : In (x, v) azimuth_scales) by (rewrite E; apply in_or_app; right; left; reflexivity).
  cbn in I. repeat (destruct I as [I|I]; [inversion I; lra|]). destruct I.
Qed.
Lemma zenith_scale_range n v : closest_row zenith_scales n v -> 889 / 1000 <= v <= 1282 / 1000.
Proof.
  intros (x & b & a & E & _). assert (I : In (x, v) zenith_scales) by (rewrite E; apply in_or_app; right; left; reflexivity).
  cbn in I. repeat (destruct I as [I|I]; [inversion I; lra|]). destruct I.
Qed.
Lemma ln_ratio m p q : 0 < q -> q < p -> p <= m -> 0 <= ln (m / p) < ln (m / q).
Proof.
  intros Q P M. split.
  - rewrite <- ln_1. destruct M as [M| ->].
    + left. apply ln_increasing; [lra|]. apply Rmult_lt_reg_r with p; [lra|]. unfold Rdiv. rewrite Rmult_assoc, Rinv_l by lra. lra.
    + right. f_equal. field. lra.
  - apply ln_increasing; [apply Rdiv_lt_0_compat; lra|]. unfold Rdiv. apply Rmult_lt_compat_l; [lra|]. apply Rinv_lt_contravar; [apply Rmult_lt_0_compat; lra | exact P].
Qed.
Lemma ln10_ge2 : 2 <= ln 10.
Proof.
  rewrite <- (ln_exp 2). assert (E : exp 2 <= 9).
  { replace 2 with (1 + 1) by ring. rewrite exp_plus. pose proof exp_le_3. pose proof (exp_pos 1). replace 9 with (3 * 3) by ring. apply Rmult_le_compat; lra. }
  left. apply ln_increasing; [apply exp_pos | lra].
Qed.
