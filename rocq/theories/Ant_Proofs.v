(** Proofs about antennas and antenna arrays. *)
From Coq Require Import List Reals Lra Lia ZArith Bool Nsatz.
From Coquelicot Require Import Complex.
From Verif Require Import Base BaseLemmas Cplx Cplx_Proofs Rot_Model Rot_Spec Rot_Proofs Ant_Model Ant_Spec.
Import ListNotations.
Open Scope R_scope.

(** An orthonormal frame expands every vector *)
Lemma expand : forall d e f v, dot d d = 1 -> dot e e = 1 -> dot d e = 0 -> f = cross d e ->
  dot d v = 0 -> v = vadd (vscale (dot e v) e) (vscale (dot f v) f).
Proof.
  intros [d0 d1 d2] [e0 e1 e2] f [v0 v1 v2] H1 H2 H3 -> H4. comps.
  apply vec_eq; cbn [vx vy vz]; nsatz.
Qed.

Lemma unit_frame : forall a z, dot (From_Spherical a z) (From_Spherical a z) = 1 /\ dot (zenith_unit a z) (zenith_unit a z) = 1 /\
  dot (azimuth_unit a) (azimuth_unit a) = 1 /\ dot (From_Spherical a z) (zenith_unit a z) = 0 /\ dot (From_Spherical a z) (azimuth_unit a) = 0 /\
  azimuth_unit a = cross (From_Spherical a z) (zenith_unit a z).
Proof.
  intros a z. unfold From_Spherical, zenith_unit, azimuth_unit. pose proof (sc2 a) as Ha. pose proof (sc2 z) as Hz.
  revert Ha Hz. generalize (sin a) (cos a) (sin z) (cos z). intros sa ca sz cz Ha Hz.
  repeat split; [| | | | |apply vec_eq]; comps; nsatz.
Qed.
Lemma dot_comm : forall a b, dot a b = dot b a.
Proof. intros. comps. ring. Qed.
Lemma dot_vadd_r : forall a b c, dot a (vadd b c) = dot a b + dot a c.
Proof. intros. comps. ring. Qed.
Lemma dot_vscale_r : forall a k c, dot a (vscale k c) = k * dot a c.
Proof. intros. comps. ring. Qed.

Lemma field_power : forall d c, dot (field d c) (field d c) = power c.
Proof.
  intros d [c0 c1]. unfold field, power. destruct (to_spherical d) as [a z]. cbn [fst snd].
  pose proof (sc2 a) as Ha. pose proof (sc2 z) as Hz. revert Ha Hz. generalize (sin a) (cos a) (sin z) (cos z). intros sa ca sz cz Ha Hz.
  comps. squares. nsatz.
Qed.

Lemma field_rotates : forall k t v, proper (rotation t) -> dot v v = 1 ->
  field (mv (rotation t) v) (global_characteristics k t (mv (rotation t) v)) = mv (rotation t) (field v (pattern k v)).
Proof.
  intros k t v Ht Hv. set (d := mv (rotation t) v).
  assert (Hd : dot d d = 1) by (unfold d; rewrite dot_proper by exact Ht; exact Hv).
  assert (El : rotate_direction (invert t) d = v).
  { unfold rotate_direction, invert, d. cbn [rotation]. rewrite <- mv_mm, minv_l by (destruct Ht; lra). apply mv_eye. }
  unfold global_characteristics, field, pattern. rewrite El.
  pose proof (spherical_write v Hv) as Wv. pose proof (spherical_write d Hd) as Wd.
  destruct (to_spherical v) as [al zl]. destruct (to_spherical d) as [ag zg].
  destruct (local_characteristics k al zl) as [ct ca]. cbn [fst snd].
  fold (zenith_unit ag zg). fold (azimuth_unit ag). fold (zenith_unit al zl). fold (azimuth_unit al).
  destruct (unit_frame al zl) as [L1 [L2 [L3 [L4 [L5 L6]]]]]. destruct (unit_frame ag zg) as [G1 [G2 [G3 [G4 [G5 G6]]]]].
  rewrite Wv in *. rewrite Wd in *.
  rewrite mv_vadd, !mv_scale. set (lz := mv (rotation t) (zenith_unit al zl)). set (la := mv (rotation t) (azimuth_unit al)).
  assert (Dz : dot d lz = 0) by (unfold d, lz; rewrite dot_proper by exact Ht; exact L4).
  assert (Da : dot d la = 0) by (unfold d, la; rewrite dot_proper by exact Ht; exact L5).
  symmetry. rewrite (expand d (zenith_unit ag zg) (azimuth_unit ag) (vadd (vscale ct lz) (vscale ca la)) G1 G2 G4 G6).
  - rewrite !dot_vadd_r, !dot_vscale_r. f_equal; f_equal; ring.
  - rewrite dot_vadd_r, !dot_vscale_r, Dz, Da. ring.
Qed.

Lemma power_kept : forall k t d, proper (rotation t) -> dot d d = 1 ->
  power (global_characteristics k t d) = power (pattern k (mv (transpose (rotation t)) d)).
Proof.
  intros k t d Ht Hd. set (v := mv (transpose (rotation t)) d).
  assert (E : mv (rotation t) v = d) by (unfold v; rewrite <- mv_mm, (proj1 Ht); apply mv_eye).
  assert (Hv : dot v v = 1). { rewrite <- (dot_proper (rotation t) v v Ht), E. exact Hd. }
  rewrite <- (field_power d), <- (field_power v). rewrite <- E at 1 2 3 4. rewrite field_rotates by assumption. apply dot_proper. exact Ht.
Qed.

(** Patterns *)
Lemma power_ideal : forall v, power (pattern Ideal v) = 1.
Proof.
  intros v. unfold pattern, power. destruct (to_spherical v). cbn [local_characteristics fst snd].
  pose proof (sqrt_sqrt 2 ltac:(lra)) as E. assert (sqrt 2 <> 0) by (apply Rgt_not_eq, sqrt_lt_R0; lra).
  replace ((/ sqrt 2) ^ 2) with (/ (sqrt 2 * sqrt 2)) by (field; assumption). rewrite E. lra.
Qed.
Lemma power_linear : forall s v, power (pattern (Linear s) v) = 1.
Proof.
  intros s v. unfold pattern, power. destruct (to_spherical v). cbn [local_characteristics fst snd]. pose proof (sc2 s). lra.
Qed.
Lemma power_patch : forall v, 1 / 100 <= power (pattern Patch v) <= 1.
Proof.
  intros v. unfold pattern, power. destruct (to_spherical v) as [a z]. cbn [local_characteristics fst snd].
  set (g := (1 / 10 + 9 / 10 * exp (- (1315 / 1000) * a ^ 2)) * cos z ^ 2).
  assert (He : 0 < exp (- (1315 / 1000) * a ^ 2) <= 1).
  { split; [apply exp_pos|]. rewrite <- exp_0. assert (Hs : 0 <= a ^ 2) by apply pow2_ge_0.
    destruct (Req_dec (a ^ 2) 0) as [E|E]; [rewrite E, Rmult_0_r; lra|]. left. apply exp_increasing. nra. }
  assert (Hc : 0 <= cos z ^ 2 <= 1). { pose proof (sc2 z). split; [apply pow2_ge_0|]. nra. }
  assert (Hg : g <= 1) by (unfold g; nra).
  assert (Hm : 1 / 10 <= Rmax (1 / 10) g <= 1) by (split; [apply Rmax_l|apply Rmax_lub; lra]).
  revert Hm. generalize (Rmax (1 / 10) g). intros r Hm. split; nra.
Qed.
(** Jordan's inequality *)
Lemma jordan : forall c, 0 <= c <= 1 -> c <= sin (PI / 2 * c).
Proof.
  intros c Hc. pose proof PI_RGT_0 as Hpi. destruct (Req_dec c 0) as [->|H0]; [rewrite Rmult_0_r, sin_0; lra|].
  destruct (Req_dec c 1) as [->|H1]; [rewrite Rmult_1_r, sin_PI2; lra|].
  apply Rnot_lt_le. intros H.
  set (f := fun t => sin (PI / 2 * t) - t). set (f' := fun t => cos (PI / 2 * t) * (PI / 2) - 1).
  assert (Hd : forall t, derivable_pt_lim f t (f' t)).
  { intros t. unfold f, f'. apply derivable_pt_lim_minus; [|apply derivable_pt_lim_id].
    apply (derivable_pt_lim_comp (fun t => PI / 2 * t) sin).
    - assert (Hl : derivable_pt_lim (fun t => PI / 2 * t) t (PI / 2 * 1)) by (apply (derivable_pt_lim_scal (fun t => t) (PI / 2)); apply derivable_pt_lim_id).
      rewrite Rmult_1_r in Hl. exact Hl.
    - apply derivable_pt_lim_sin. }
  destruct (MVT_cor2 f f' 0 c ltac:(lra) ltac:(intros; apply Hd)) as [u [Eu Hu]].
  destruct (MVT_cor2 f f' c 1 ltac:(lra) ltac:(intros; apply Hd)) as [w [Ew Hw]].
  assert (F0 : f 0 = 0) by (unfold f; rewrite Rmult_0_r, sin_0; ring).
  assert (F1 : f 1 = 0) by (unfold f; rewrite Rmult_1_r, sin_PI2; ring).
  assert (Fc : f c < 0) by (unfold f; lra).
  assert (Hu' : f' u < 0) by (apply (Rmult_lt_reg_r (c - 0)); lra).
  assert (Hw' : 0 < f' w) by (apply (Rmult_lt_reg_r (1 - c)); lra).
  assert (Hcos : cos (PI / 2 * w) < cos (PI / 2 * u)). { apply cos_decreasing_1; nra. }
  unfold f' in *. nra.
Qed.
Lemma power_dipole : forall v, dot v v = 1 -> 0 <= power (pattern Dipole v) <= 1.
Proof.
  intros v Hv. split; [unfold power; pose proof (pow2_ge_0 (fst (pattern Dipole v))); pose proof (pow2_ge_0 (snd (pattern Dipole v))); lra|].
  unfold pattern, power. destruct (to_spherical v) as [a z] eqn:E. cbn [local_characteristics fst snd].
  assert (Hz : 0 <= z <= PI). { unfold to_spherical in E. injection E as <- <-. apply acos_bound. }
  destruct (Req_EM_T z 0) as [E0|E0]; [lra|]. destruct (Req_dec (sin z) 0) as [Es|Es].
  { unfold Rdiv. rewrite Es, Rinv_0. lra. }
  assert (Hj : forall c, -1 <= c <= 1 -> c ^ 2 <= sin (PI / 2 * c) ^ 2).
  { intros c Hc. destruct (Rle_or_lt 0 c) as [Hp|Hp].
    - pose proof (jordan c ltac:(lra)). nra.
    - pose proof (jordan (- c) ltac:(lra)) as J. replace (PI / 2 * - c) with (- (PI / 2 * c)) in J by ring. rewrite sin_neg in J. nra. }
  specialize (Hj (cos z) (COS_bound z)). replace (1 / 2 * PI * cos z) with (PI / 2 * cos z) by lra.
  pose proof (sc2 (PI / 2 * cos z)) as H1. pose proof (sc2 z) as H2.
  replace ((cos (PI / 2 * cos z) / sin z) ^ 2 + 0 ^ 2) with (cos (PI / 2 * cos z) ^ 2 / sin z ^ 2) by (field; exact Es).
  assert (Hs : 0 < sin z ^ 2) by nra. apply (Rmult_le_reg_r (sin z ^ 2)); [exact Hs|].
  replace (cos (PI / 2 * cos z) ^ 2 / sin z ^ 2 * sin z ^ 2) with (cos (PI / 2 * cos z) ^ 2) by (field; exact Es). nra.
Qed.

(** Topology *)
Lemma apply_invert : forall t p, det (rotation t) <> 0 -> apply (invert t) (apply t p) = p.
Proof.
  intros t p H. unfold apply, invert. cbn [rotation translation]. rewrite mv_vadd, <- mv_mm, minv_l, mv_eye by exact H.
  set (q := mv (minv (rotation t)) (translation t)). apply vec_eq; comps; ring.
Qed.
Lemma scene_forwards : forall arr a, translation (forwards arr a) = scene_position arr a.
Proof. reflexivity. Qed.
Lemma topology_local : forall arr m, det (rotation (base arr)) <> 0 -> topology arr m = map (fun a => translation (apose a)) (select m (antennas arr)).
Proof.
  intros arr m H. unfold topology. apply map_ext. intros a. rewrite scene_forwards. unfold scene_position. apply (apply_invert (base arr)). exact H.
Qed.
Lemma select_chosen : forall m l, chosen m l (select m l).
Proof.
  intros m l. destruct m; cbn [select]; induction l as [|a l IH]; cbn [filter]; try apply chosen_nil.
  - destruct (amode a) eqn:E; cbn [mode_eqb negb]; [apply chosen_take|apply chosen_skip|apply chosen_take]; auto; unfold transmits; try tauto.
    intros [H|H]; congruence.
  - destruct (amode a) eqn:E; cbn [mode_eqb negb]; [apply chosen_skip|apply chosen_take|apply chosen_take]; auto; unfold receives; try tauto.
    intros [H|H]; congruence.
  - apply chosen_take; [exact I|exact IH].
Qed.
Lemma chosen_unique : forall m l r, chosen m l r -> r = select m l.
Proof.
  intros m l r H. induction H as [m|m a l r Ha H IH|m a l r Ha H IH].
  - destruct m; reflexivity.
  - subst r. destruct m; cbn [select filter]; [|unfold receives in Ha|reflexivity]; try unfold transmits in Ha; destruct Ha as [->| ->]; reflexivity.
  - subst r. destruct m; cbn [select filter]; [unfold transmits in Ha|unfold receives in Ha|tauto]; destruct (amode a); try tauto; reflexivity.
Qed.
Lemma distance_rigid : forall t p q, proper (rotation t) -> norm (vsub (apply (invert t) p) (apply (invert t) q)) = norm (vsub p q).
Proof.
  intros t p q H. unfold apply, invert. cbn [rotation translation]. unfold norm. f_equal.
  set (o := vscale (-1) (mv (minv (rotation t)) (translation t))).
  replace (vsub (vadd (mv (minv (rotation t)) p) o) (vadd (mv (minv (rotation t)) q) o)) with (mv (minv (rotation t)) (vsub p q)).
  - apply dot_proper. apply proper_minv. exact H.
  - rewrite mv_vsub. generalize (mv (minv (rotation t)) p) (mv (minv (rotation t)) q). intros x y. apply vec_eq; comps; ring.
Qed.
Lemma cartesian_distances : forall arr carrier p m, proper (rotation (base arr)) ->
  cartesian_phase_response arr carrier p Global m =
  map (fun a => cis (- (2 * PI * carrier * norm (vsub (scene_position arr a) p) / speed_of_light))) (select m (antennas arr)).
Proof.
  intros arr carrier p m H. unfold cartesian_phase_response, topology. rewrite map_map. apply map_ext. intros a. rewrite distance_rigid by exact H. reflexivity.
Qed.
Lemma cis_modulus : forall x, Cmod (cis x) = 1.
Proof. intros x. unfold Cmod, cis. cbn [fst snd]. pose proof (sc2 x). replace (cos x ^ 2 + sin x ^ 2) with 1 by lra. apply sqrt_1. Qed.

(** Chords are shorter than arcs *)
Lemma sin_abs : forall x, 0 <= x -> sin x <= x.
Proof.
  intros x Hx. destruct (Req_dec x 0) as [->|H]; [rewrite sin_0; lra|]. pose proof (sin_lt_x x ltac:(lra)). lra.
Qed.
Lemma cis_chord : forall a b, Cmod (cis a - cis b)%C <= Rabs (a - b).
Proof.
  assert (K : forall x, 0 <= x -> 2 - 2 * cos x <= x ^ 2).
  { intros x Hx. replace x with (2 * (x / 2)) at 1 by field. rewrite cos_2a. pose proof (sc2 (x / 2)) as E.
    assert (H : sin (x / 2) ^ 2 <= (x / 2) ^ 2).
    { pose proof (sin_abs (x / 2) ltac:(lra)) as S1.
      assert (S2 : - (x / 2) <= sin (x / 2)).
      { destruct (Rle_or_lt (x / 2) PI) as [Hp|Hp]; [pose proof (sin_ge_0 (x / 2) ltac:(lra) Hp); lra|pose proof (SIN_bound (x / 2)); pose proof PI2_3_2 as P; lra]. }
      nra. }
    nra. }
  intros a b. unfold Cmod. apply Rsqr_incr_0_var; [|apply Rabs_pos]. unfold Rsqr. rewrite sqrt_sqrt.
  - rewrite <- Rabs_mult, Rabs_right by (apply Rle_ge; exact (Rle_0_sqr (a - b))). unfold cis, Cminus, Cplus, Copp. cbn [fst snd].
    replace ((cos a + - cos b) ^ 2 + (sin a + - sin b) ^ 2) with (2 - 2 * cos (a - b)).
    + destruct (Rle_or_lt 0 (a - b)) as [H|H]; [pose proof (K _ H); nra|].
      pose proof (K (- (a - b)) ltac:(lra)) as K'. rewrite cos_neg in K'. nra.
    + rewrite cos_minus. pose proof (sc2 a). pose proof (sc2 b). nra.
  - pose proof (pow2_ge_0 (fst (cis a - cis b)%C)). pose proof (pow2_ge_0 (snd (cis a - cis b)%C)). lra.
Qed.
Lemma cauchy : forall d t, dot d d = 1 -> dot d t ^ 2 <= dot t t.
Proof.
  intros d t H. assert (E : 0 <= dot (vsub t (vscale (dot d t) d)) (vsub t (vscale (dot d t) d))) by apply dot_pos.
  replace (dot (vsub t (vscale (dot d t) d)) (vsub t (vscale (dot d t) d))) with (dot t t - 2 * dot d t ^ 2 + dot d t ^ 2 * dot d d) in E
    by (comps; ring). rewrite H in E. lra.
Qed.
(** The distance of a far point *)
Lemma far_distance : forall d t r, dot d d = 1 -> norm t < r ->
  0 <= norm (vsub t (vscale r d)) - (r - dot d t) <= norm t ^ 2 / (2 * (r - norm t)).
Proof.
  intros d t r Hd Hr. set (n := norm t) in *. assert (Hn : 0 <= n) by apply sqrt_pos.
  assert (En : n * n = dot t t) by apply norm_sqr. pose proof (cauchy d t Hd) as Hc.
  set (q := dot d t) in *. assert (Hq : - n <= q <= n) by (split; nra).
  set (s := norm (vsub t (vscale r d))). assert (Hs : 0 <= s) by apply sqrt_pos.
  assert (Es : s * s = n * n - 2 * r * q + r * r).
  { unfold s. rewrite norm_sqr. rewrite En. unfold q. replace (dot (vsub t (vscale r d)) (vsub t (vscale r d))) with (dot t t - 2 * r * dot d t + r * r * dot d d)
      by (comps; ring). rewrite Hd. ring. }
  assert (Hl : r - q <= s) by nra.
  split; [lra|]. assert (Hp : 0 < r - n) by lra.
  assert (H2 : (s - (r - q)) * (2 * (r - n)) <= n ^ 2).
  { assert (Ef : (s - (r - q)) * (s + (r - q)) = n * n - q * q) by nra.
    assert (Hx : 2 * (r - n) <= s + (r - q)) by lra. assert (Hy : 0 <= s - (r - q)) by lra. nra. }
  apply (Rmult_le_reg_r (2 * (r - n))); [lra|]. unfold Rdiv. rewrite Rmult_assoc, Rinv_l by lra. lra.
Qed.

(** Uniform arrays *)
Definition generated (u : uniform) : Prop := u_antennas u = map (place (u_element u) (u_spacing u)) (grid_points (u_dimensions u)).
Lemma change_ok : forall u c w, change u c = Ok w ->
  generated w /\ u_element w = u_element u /\ (u_spacing w, u_dimensions w) = request (u_spacing u, u_dimensions u) c.
Proof.
  intros u [v|v] w H; cbn [change request fst snd] in *.
  - unfold set_spacing in H. destruct (Rle_dec v 0) as [Hv|Hv]; [discriminate|]. injection H as <-. destruct (Rlt_dec 0 v) as [Hw|Hw]; [|lra]. repeat split.
  - unfold set_dimensions in H. destruct v as [|a [|b [|c [|d r]]]]; try discriminate; injection H as <-; repeat split.
Qed.
Lemma change_refused : forall u c e, change u c = Raise e -> request (u_spacing u, u_dimensions u) c = (u_spacing u, u_dimensions u).
Proof.
  intros u [v|v] e H; cbn [change request fst snd] in *.
  - unfold set_spacing in H. destruct (Rle_dec v 0) as [Hv|Hv]; [|discriminate]. destruct (Rlt_dec 0 v); [lra|reflexivity].
  - unfold set_dimensions in H. destruct v as [|a [|b [|c [|d r]]]]; try discriminate; reflexivity.
Qed.
Lemma changed_generated : forall cs u, generated u -> 0 < u_spacing u ->
  generated (changed u cs) /\ u_element (changed u cs) = u_element u /\ 0 < u_spacing (changed u cs) /\
  (u_spacing (changed u cs), u_dimensions (changed u cs)) = requested (u_spacing u, u_dimensions u) cs.
Proof.
  induction cs as [|c cs IH]; intros u Hg Hs; [repeat split; assumption|].
  unfold changed, requested. cbn [fold_left]. destruct (change u c) as [w|e] eqn:E.
  - destruct (change_ok u c w E) as [G1 [G2 G3]]. rewrite <- G3, <- G2. apply IH; [exact G1|].
    destruct c as [v|v]; cbn [request fst snd] in G3.
    + destruct (Rlt_dec 0 v); injection G3 as -> _; assumption.
    + assert (Es : u_spacing w = u_spacing u) by (destruct v as [|a [|b [|c [|d r]]]]; injection G3 as G3 _; exact G3). rewrite Es. exact Hs.
  - rewrite (change_refused u c e E). apply IH; assumption.
Qed.
Lemma in_arange : forall n k, In k (arange n) <-> (Z.of_nat k < n)%Z.
Proof. intros n k. unfold arange. rewrite in_seq. lia. Qed.
Lemma in_grid : forall nx ny nz x y z, In (x, y, z) (grid_points (nx, ny, nz)) <-> (Z.of_nat x < nx /\ Z.of_nat y < ny /\ Z.of_nat z < nz)%Z.
Proof.
  intros. unfold grid_points. rewrite in_flat_map. split.
  - intros [y' [Hy H]]. apply in_flat_map in H. destruct H as [x' [Hx H]]. apply in_map_iff in H. destruct H as [z' [E Hz]].
    injection E as -> -> ->. apply in_arange in Hx, Hy, Hz. tauto.
  - intros [Hx [Hy Hz]]. exists y. split; [apply in_arange; exact Hy|]. apply in_flat_map. exists x. split; [apply in_arange; exact Hx|].
    apply in_map. apply in_arange. exact Hz.
Qed.
Lemma nodup_flat_map : forall {X Y} (f : X -> list Y) l, NoDup l -> (forall x, In x l -> NoDup (f x)) ->
  (forall x x' y, In x l -> In x' l -> In y (f x) -> In y (f x') -> x = x') -> NoDup (flat_map f l).
Proof.
  intros X Y f l. induction l as [|x l IH]; intros Hl Hf Hd; [constructor|]. cbn [flat_map]. inversion Hl as [|x0 l0 Hn Hl' E]; subst.
  assert (Ha : forall (a b : list Y), NoDup a -> NoDup b -> (forall y, In y a -> ~ In y b) -> NoDup (a ++ b)).
  { induction a as [|y a IHa]; intros b Na Nb Hab; [exact Nb|]. inversion Na; subst. cbn. constructor.
    - rewrite in_app_iff. intros [H|H]; [tauto|]. apply (Hab y); [left; reflexivity|exact H].
    - apply IHa; auto. intros z Hz. apply Hab. right. exact Hz. }
  apply Ha.
  - apply Hf. left. reflexivity.
  - apply IH; [exact Hl'| |].
    + intros z Hz. apply Hf. right. exact Hz.
    + intros z z' y Hz Hz'. apply Hd; right; assumption.
  - intros y Hy Hy'. apply in_flat_map in Hy'. destruct Hy' as [x' [Hx' Hy']].
    assert (x = x') by (apply (Hd x x' y); [left; reflexivity|right; exact Hx'|exact Hy|exact Hy']). subst x'. tauto.
Qed.
Lemma nodup_grid : forall d, NoDup (grid_points d).
Proof.
  intros [[nx ny] nz]. unfold grid_points. apply nodup_flat_map; [apply seq_NoDup| |].
  - intros y _. apply nodup_flat_map; [apply seq_NoDup| |].
    + intros x _. apply FinFun.Injective_map_NoDup; [|apply seq_NoDup]. intros z z' E. injection E as ->. reflexivity.
    + intros x x' p _ _ H H'. apply in_map_iff in H, H'. destruct H as [z [<- _]]. destruct H' as [z' [E _]]. congruence.
  - intros y y' p _ _ H H'. apply in_flat_map in H, H'. destruct H as [x [_ H]]. destruct H' as [x' [_ H']].
    apply in_map_iff in H, H'. destruct H as [z [<- _]]. destruct H' as [z' [E _]]. congruence.
Qed.
Lemma length_flat_map_const : forall {X Y} (f : X -> list Y) k l, (forall x, length (f x) = k) -> length (flat_map f l) = (length l * k)%nat.
Proof. intros X Y f k l H. induction l as [|x l IH]; [reflexivity|]. cbn [flat_map length]. rewrite app_length, IH, H. lia. Qed.
Lemma length_grid : forall nx ny nz, length (grid_points (nx, ny, nz)) = (Z.to_nat ny * (Z.to_nat nx * Z.to_nat nz))%nat.
Proof.
  intros. unfold grid_points. rewrite (length_flat_map_const _ (Z.to_nat nx * Z.to_nat nz)); [unfold arange; rewrite seq_length; reflexivity|].
  intros y. rewrite (length_flat_map_const _ (Z.to_nat nz)); [unfold arange; rewrite seq_length; reflexivity|].
  intros x. rewrite map_length. apply seq_length.
Qed.
Definition point (s : R) (p : nat * nat * nat) : vec := let '(x, y, z) := p in V (s * INR x) (s * INR y) (s * INR z).
Lemma positions_generated : forall u, generated u -> positions u = map (point (u_spacing u)) (grid_points (u_dimensions u)).
Proof.
  intros u H. unfold positions. rewrite H, map_map. apply map_ext. intros [[x y] z]. reflexivity.
Qed.
Lemma INR_gap : forall a b : nat, a <> b -> 1 <= (INR a - INR b) * (INR a - INR b).
Proof.
  intros a b H. assert (K : forall a b, (a < b)%nat -> INR a + 1 <= INR b) by (intros x y Hxy; rewrite <- S_INR; apply le_INR; lia).
  destruct (Nat.lt_ge_cases a b) as [Hab|Hab]; [pose proof (K a b Hab); nra|pose proof (K b a ltac:(lia)); nra].
Qed.
Lemma point_gap : forall s p q, 0 < s -> p <> q -> s <= distance (point s p) (point s q).
Proof.
  intros s [[x y] z] [[x' y'] z'] Hs Hn. unfold distance, norm. rewrite <- (sqrt_Rsqr s) at 1 by lra. apply sqrt_le_1_alt. unfold Rsqr.
  cbn [point]. unfold vsub, dot. cbn [vx vy vz].
  assert (Hd : x <> x' \/ y <> y' \/ z <> z').
  { destruct (Nat.eq_dec x x') as [->|]; [|tauto]. destruct (Nat.eq_dec y y') as [->|]; [|tauto]. destruct (Nat.eq_dec z z') as [->|]; [tauto|tauto]. }
  pose proof (Rle_0_sqr (INR x - INR x')) as Px. pose proof (Rle_0_sqr (INR y - INR y')) as Py. pose proof (Rle_0_sqr (INR z - INR z')) as Pz. unfold Rsqr in *.
  assert (Hg : 1 <= (INR x - INR x') * (INR x - INR x') + (INR y - INR y') * (INR y - INR y') + (INR z - INR z') * (INR z - INR z')).
  { destruct Hd as [Hd|[Hd|Hd]]; pose proof (INR_gap _ _ Hd); lra. }
  set (g := (INR x - INR x') * (INR x - INR x') + (INR y - INR y') * (INR y - INR y') + (INR z - INR z') * (INR z - INR z')) in *.
  replace ((s * INR x - s * INR x') * (s * INR x - s * INR x') + (s * INR y - s * INR y') * (s * INR y - s * INR y') +
           (s * INR z - s * INR z') * (s * INR z - s * INR z')) with (s * s * g) by (unfold g; ring).
  assert (0 < s * s) by nra. nra.
Qed.
Lemma point_inj : forall s p q, 0 < s -> point s p = point s q -> p = q.
Proof.
  intros s p q Hs E. assert (Hdec : p = q \/ p <> q).
  { destruct p as [[x y] z], q as [[x' y'] z']. destruct (Nat.eq_dec x x') as [->|]; [|right; congruence].
    destruct (Nat.eq_dec y y') as [->|]; [|right; congruence]. destruct (Nat.eq_dec z z') as [->|]; [left; reflexivity|right; congruence]. }
  destruct Hdec as [H|H]; [exact H|]. pose proof (point_gap s p q Hs H) as G. rewrite E in G. unfold distance, norm in G.
  replace (dot (vsub (point s q) (point s q)) (vsub (point s q) (point s q))) with 0 in G by (comps; ring). rewrite sqrt_0 in G. lra.
Qed.
Lemma created : forall e s d u, create_uniform e s d = Ok u -> generated u /\ 0 < u_spacing u /\ u_element u = e /\ u_spacing u = s /\
  u_dimensions u = snd (request (s, (0, 0, 0)%Z) (Dimensions d)).
Proof.
  intros e s d u H. unfold create_uniform, set_spacing in H. destruct (Rle_dec s 0) as [Hs|Hs]; [discriminate|]. cbn [bind] in H.
  destruct d as [|a [|b [|c [|x r]]]]; try discriminate; cbn [set_dimensions] in H; injection H as <-; cbn; repeat split; lra.
Qed.
