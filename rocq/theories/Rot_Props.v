(** C61 - C63: rigid transformations, orientations and directions. *)
From Coq Require Import List Reals Lra Lia Nsatz.
From Verif Require Import Base Rot_Model Rot_Spec Rot_Proofs.
Import ListNotations.
Open Scope R_scope.

(** * C61 *)
(** Transformations built from angles or quaternions, their products and inverses are rigid *)
Theorem C61_rigid : 
  rigid no_transformation /\ (forall rpy pos, rigid (From_RPY rpy pos)) /\ (forall q pos, qnorm q <> 0 -> rigid (From_Quaternion q pos true)) /\
  (forall q pos, unit_quaternion q -> rigid (From_Quaternion q pos false)) /\
  (forall a b, rigid a -> rigid b -> rigid (compose a b)) /\ (forall a, rigid a -> rigid (invert a)).
Proof.
  split; [split; [apply mat_eq; unfold no_transformation; cbn [rotation]; comps; ring|unfold no_transformation; cbn [rotation]; comps; ring]|]. split; [intros; apply rpy_proper|]. split; [intros; apply quaternion_normalised_proper; assumption|].
  split; [intros; apply quaternion_proper; assumption|]. split; [intros; apply proper_mm; assumption|]. intros; apply proper_minv; assumption.
Qed.
Print Assumptions C61_rigid.

(** Rigid transformations form a group *)
Theorem C61_group :
  (forall a b c, compose a (compose b c) = compose (compose a b) c) /\ (forall a, compose no_transformation a = a /\ compose a no_transformation = a) /\
  (forall a, rigid a -> compose a (invert a) = no_transformation /\ compose (invert a) a = no_transformation).
Proof.
  assert (Ht : forall a b, rotation a = rotation b -> translation a = translation b -> a = b) by (intros [] []; cbn; intros; subst; reflexivity).
  split; [|split].
  - intros a b c. apply Ht; cbn [compose rotation translation]; [apply mm_assoc|]. apply vec_eq; comps; ring.
  - intros a. split; apply Ht; cbn [compose no_transformation rotation translation].
    + apply mm_eye_l. + apply vec_eq; comps; ring. + apply mm_eye_r. + apply vec_eq; comps; ring.
  - intros a [H1 H2]. split; apply Ht; cbn [compose invert no_transformation rotation translation].
    + apply minv_r. lra.
    + rewrite mv_scale, <- mv_mm, minv_r by lra. rewrite mv_eye. apply vec_eq; comps; ring.
    + apply minv_l. lra.
    + apply vec_eq; comps; ring.
Qed.
Print Assumptions C61_group.

(** Positions: products apply one after the other, inverses undo, distances, angles and orientation are kept *)
Theorem C61_positions : forall a b v,
  (exists w, transform_position b (coordinates v) = Ok (coordinates w) /\ transform_position a (coordinates w) = transform_position (compose a b) (coordinates v)) /\
  (rigid a -> exists w, transform_position a (coordinates v) = Ok (coordinates w) /\ transform_position (invert a) (coordinates w) = Ok (coordinates v)).
Proof.
  intros a b v. assert (E : forall c u, transform_position c (coordinates u) = Ok (coordinates (vadd (mv (rotation c) u) (translation c)))) by (intros c [x y z]; reflexivity).
  split.
  - exists (vadd (mv (rotation b) v) (translation b)). rewrite !E. split; [reflexivity|]. do 2 f_equal. cbn [compose rotation translation]. apply vec_eq; comps; ring.
  - intros [H1 H2]. exists (vadd (mv (rotation a) v) (translation a)). rewrite !E. split; [reflexivity|]. do 2 f_equal. cbn [invert rotation translation].
    rewrite mv_vadd, <- mv_mm, minv_l by lra. rewrite mv_eye. apply vec_eq; comps; ring.
Qed.
Print Assumptions C61_positions.
Theorem C61_isometry : forall a u v u' v', rigid a ->
  transform_position a (coordinates u) = Ok (coordinates u') -> transform_position a (coordinates v) = Ok (coordinates v') ->
  distance u' v' = distance u v /\
  (forall x y, dot (rotate_direction a x) (rotate_direction a y) = dot x y) /\
  (forall x y, cross (rotate_direction a x) (rotate_direction a y) = rotate_direction a (cross x y)).
Proof.
  intros a u v u' v' H Hu Hv. assert (E : forall c w, transform_position c (coordinates w) = Ok (coordinates (vadd (mv (rotation c) w) (translation c)))) by (intros c [x y z]; reflexivity).
  assert (Inj : forall p q, coordinates p = coordinates q -> p = q) by (intros [] []; unfold coordinates; cbn; congruence).
  rewrite E in Hu, Hv.
  assert (Eu : u' = vadd (mv (rotation a) u) (translation a)) by (apply Inj; congruence).
  assert (Ev : v' = vadd (mv (rotation a) v) (translation a)) by (apply Inj; congruence).
  split; [|split; [intros; apply dot_proper; exact H|intros; apply cross_proper; exact H]].
  unfold distance, norm. rewrite Eu, Ev.
  replace (vsub (vadd (mv (rotation a) u) (translation a)) (vadd (mv (rotation a) v) (translation a))) with (mv (rotation a) (vsub u v)) by (apply vec_eq; comps; ring).
  rewrite dot_proper by exact H. reflexivity.
Qed.
Print Assumptions C61_isometry.
(** Normalised directions have unit length *)
Theorem C61_directions : forall a v r, transform_direction a v true = Ok r -> unit_vector r.
Proof.
  intros a v r H. unfold transform_direction, from_cartesian in H. destruct (Req_EM_T (norm (rotate_direction a v)) 0) as [|Hn]; [discriminate|].
  injection H as <-. apply norm_one. apply normalised. exact Hn.
Qed.
Print Assumptions C61_directions.

Definition tilted : transformation := From_RPY (V (PI / 6) (PI / 4) (PI / 3)) (V 1 2 3).
Example C61_met : rigid tilted /\ rigid (compose tilted (From_Quaternion (Q4 1 2 3 4) (V 5 6 7) true)) /\ rigid (invert tilted) /\
  transform_position (From_RPY (V 0 0 0) (V 1 2 3)) (coordinates (V 4 5 6)) = Ok (coordinates (V 5 7 9)) /\
  exists r, transform_direction tilted (V 1 0 0) true = Ok r.
Proof.
  assert (R1 : rigid tilted) by apply rpy_proper. assert (R2 : rigid (From_Quaternion (Q4 1 2 3 4) (V 5 6 7) true)).
  { apply quaternion_normalised_proper. intros E. pose proof (qnorm_sqr (Q4 1 2 3 4)) as K. rewrite E in K. cbn [q0 q1 q2 q3] in K. lra. }
  split; [exact R1|]. split; [apply proper_mm; assumption|]. split; [apply proper_minv; assumption|]. split.
  - unfold transform_position, coordinates. cbn [List.length Nat.ltb Nat.leb vx vy vz List.nth List.firstn]. unfold From_RPY, rotation_from_rpy. cbn [rotation translation vx vy vz]. rewrite sin_0, cos_0.
    comps. repeat f_equal; ring.
  - unfold transform_direction, from_cartesian. destruct (Req_EM_T _ 0) as [E|E]; [exfalso|eexists; reflexivity].
    assert (K : dot (rotate_direction tilted (V 1 0 0)) (rotate_direction tilted (V 1 0 0)) = 1) by (unfold rotate_direction; rewrite dot_proper by exact R1; comps; ring).
    rewrite <- norm_sqr, E in K. lra.
Qed.
(** Two-dimensional positions are cut after the transformation: inverses do not undo *)
Theorem C61_plane_refuted : exists a, rigid a /\ transform_position a [1; 0] = Ok [0; 0] /\ transform_position (invert a) [0; 0] = Ok [0; 0].
Proof.
  set (a := mkT (M 0 0 (-1) 0 1 0 1 0 0) zero). exists a. assert (H : proper (rotation a)) by (split; [apply mat_eq; unfold a; cbn [rotation]; comps; ring|unfold a; cbn [rotation]; comps; ring]).
  split; [exact H|]. split.
  - unfold transform_position, a. cbn [List.length Nat.ltb Nat.leb List.nth List.firstn rotation translation]. comps. repeat f_equal; ring.
  - unfold transform_position, invert. rewrite (minv_proper _ H). unfold a. cbn [List.length Nat.ltb Nat.leb List.nth List.firstn rotation translation]. comps. repeat f_equal; ring.
Qed.
Print Assumptions C61_plane_refuted.

(** * C62 *)
(** Angles read from a transformation describe its rotation, except in one of the two gimbal locks *)
Theorem C62_angles_describe_the_rotation : forall a, proper a -> m20 a <> 1 -> rotation_from_rpy (rotation_rpy a) = a.
Proof. exact rpy_write. Qed.
Print Assumptions C62_angles_describe_the_rotation.
(** Assigned angles are read back if they lie in the principal range *)
Theorem C62_angles_are_read_back : forall rpy, - PI < vx rpy <= PI -> - (PI / 2) < vy rpy < PI / 2 -> - PI < vz rpy <= PI ->
  rotation_rpy (rotation_from_rpy rpy) = rpy.
Proof. exact rpy_read. Qed.
Print Assumptions C62_angles_are_read_back.
(** Every rotation that pitches straight down is misread as pitching straight up *)
Theorem C62_gimbal_lock_refuted : forall a, proper a -> m20 a = 1 -> rotation_from_rpy (rotation_rpy a) <> a.
Proof.
  intros a H H1 E. apply (f_equal m20) in E. rewrite H1 in E. 
  destruct (mat_components _ _ (proper_transpose a H)) as [T0 _]. comps. rewrite H1 in T0. destruct (squares_zero (m00 a) (m10 a)) as [E0 E1]; [lra|].
  unfold rotation_rpy in E. rewrite E0, E1 in E. replace (0 ^ 2 + 0 ^ 2) with 0 in E by ring. rewrite sqrt_0 in E. cbv zeta in E.
  destruct (Req_EM_T 0 0) as [_|K]; [|contradiction]. unfold rotation_from_rpy in E. cbn [m20 vy] in E. replace (1 / 2 * PI) with (PI / 2) in E by field. rewrite sin_PI2 in E. lra.
Qed.
Print Assumptions C62_gimbal_lock_refuted.
Example C62_met : proper (rotation tilted) /\ m20 (rotation tilted) <> 1 /\ proper (M 0 0 (-1) 0 1 0 1 0 0) /\
  (- PI < PI / 6 <= PI /\ - (PI / 2) < PI / 4 < PI / 2 /\ - PI < PI / 3 <= PI).
Proof.
  pose proof PI_RGT_0. split; [apply rpy_proper|]. split.
  - unfold tilted, From_RPY, rotation_from_rpy. cbn [rotation m20 vy]. assert (0 < sin (PI / 4)) by (apply sin_gt_0; lra). lra.
  - split; [split; [apply mat_eq; comps; ring|comps; ring]|lra].
Qed.
(** Scaling a quaternion does not change its rotation, and opposite quaternions describe the same rotation *)
Theorem C62_quaternion_scaling : forall k q, 0 < k -> qnorm q <> 0 ->
  rotation_from_quaternion (qscale k q) true = rotation_from_quaternion q true /\
  rotation_from_quaternion (qscale (-1) q) false = rotation_from_quaternion q false.
Proof.
  intros k q Hk Hq. split; [apply quaternion_scale; assumption|]. unfold rotation_from_quaternion, qscale. cbn [q0 q1 q2 q3]. f_equal; ring.
Qed.
Print Assumptions C62_quaternion_scaling.
(** Quaternions read from a transformation have a wrong real part: the reciprocal of sixteen times the right one *)
Theorem C62_quaternion_reading_refuted : forall q, unit_quaternion q -> 1 / 2 < q0 q ->
  rotation_quaternion (rotation_from_quaternion q false) = Q4 (/ (16 * q0 q)) (q1 q) (q2 q) (q3 q) /\
  ~ unit_quaternion (rotation_quaternion (rotation_from_quaternion q false)).
Proof.
  intros q H Hq. rewrite (quaternion_read q H Hq). split; [reflexivity|]. unfold unit_quaternion in *. cbn [q0 q1 q2 q3]. intros K.
  assert (E : (/ (16 * q0 q)) ^ 2 = q0 q ^ 2) by lra. assert (L : / (16 * q0 q) < 1 / 8).
  { apply (Rmult_lt_reg_l (16 * q0 q)); [lra|]. rewrite Rinv_r by lra. lra. }
  assert (P : 0 < / (16 * q0 q)) by (apply Rinv_0_lt_compat; lra). nra.
Qed.
Print Assumptions C62_quaternion_reading_refuted.
Example C62_quaternion_met : unit_quaternion (Q4 (4 / 5) 0 (3 / 5) 0) /\ 1 / 2 < q0 (Q4 (4 / 5) 0 (3 / 5) 0) /\ qnorm (Q4 1 2 3 4) <> 0.
Proof.
  split; [unfold unit_quaternion; cbn [q0 q1 q2 q3]; field|]. split; [cbn; lra|].
  intros E. pose proof (qnorm_sqr (Q4 1 2 3 4)) as K. rewrite E in K. cbn [q0 q1 q2 q3] in K. lra.
Qed.

(** * C63 *)
(** Directions given by angles have unit length; angles are read back away from the poles; every unit vector is rebuilt from its angles *)
Theorem C63_spherical_coordinates :
  (forall azimuth zenith, unit_vector (From_Spherical azimuth zenith)) /\
  (forall azimuth zenith, - PI < azimuth <= PI -> 0 < zenith < PI -> to_spherical (From_Spherical azimuth zenith) = (azimuth, zenith)) /\
  (forall v, unit_vector v -> From_Spherical (fst (to_spherical v)) (snd (to_spherical v)) = v).
Proof.
  split; [intros; apply norm_one; apply spherical_unit|]. split; [apply spherical_read|]. intros v H. apply norm_one in H.
  pose proof (spherical_write v H) as K. destruct (to_spherical v). exact K.
Qed.
Print Assumptions C63_spherical_coordinates.
(** Pointing a transformation at a target keeps its position and yields a rigid transformation whose third axis points at the target,
    whose first axis is level and whose second axis points upwards *)
Theorem C63_lookat : forall a target up, let d := vsub target (translation a) in norm (cross up d) <> 0 ->
  rigid (lookat a target up) /\ translation (lookat a target up) = translation a /\
  rotate_direction (lookat a target up) (V 0 0 1) = vscale (/ norm d) d /\
  dot (rotate_direction (lookat a target up) (V 1 0 0)) up = 0 /\ 0 < dot (rotate_direction (lookat a target up) (V 0 1 0)) up.
Proof. exact lookat_spec. Qed.
Print Assumptions C63_lookat.
Example C63_met : unit_vector (V 0 0 1) /\ norm (cross (V 0 1 0) (vsub (V 1 2 3) (translation no_transformation))) <> 0.
Proof.
  split; [unfold unit_vector, norm; replace (dot (V 0 0 1) (V 0 0 1)) with 1 by (comps; ring); apply sqrt_1|].
  intros E. pose proof (norm_sqr (cross (V 0 1 0) (vsub (V 1 2 3) (translation no_transformation)))) as K. rewrite E in K. cbn [no_transformation translation] in K. comps. lra.
Qed.
(** If the target lies straight along the upward direction, the result is not even invertible *)
Theorem C63_lookat_upwards_refuted : det (rotation (lookat no_transformation (V 0 1 0) (V 0 1 0))) = 0.
Proof.
  assert (N : norm (V 0 1 0) = 1) by (unfold norm; replace (dot (V 0 1 0) (V 0 1 0)) with 1 by (comps; ring); apply sqrt_1).
  assert (Nz : norm zero = 0) by (unfold norm; replace (dot zero zero) with 0 by (comps; ring); apply sqrt_0).
  unfold lookat. cbn [no_transformation translation]. replace (vsub (V 0 1 0) zero) with (V 0 1 0) by (apply vec_eq; comps; ring). rewrite N.
  replace (vscale (/ 1) (V 0 1 0)) with (V 0 1 0) by (apply vec_eq; comps; field). cbv zeta. destruct (Req_EM_T 1 0) as [K|_]; [lra|].
  replace (cross (V 0 1 0) (V 0 1 0)) with zero by (apply vec_eq; comps; ring). rewrite Nz. destruct (Req_EM_T 0 0) as [_|K]; [|contradiction].
  cbn [rotation]. comps. ring.
Qed.
Print Assumptions C63_lookat_upwards_refuted.
