(** Proofs about coordinate transformations. *)
From Coq Require Import List Reals Lra Lia Psatz Nsatz.
From Verif Require Import Base Rot_Model Rot_Spec.
Import ListNotations.
Open Scope R_scope.

Ltac comps := unfold mm, mv, vadd, vsub, vscale, dot, cross, transpose, det, eye, zero in *; cbn [m00 m01 m02 m10 m11 m12 m20 m21 m22 vx vy vz] in *.
Lemma mat_eq : forall a b, m00 a = m00 b -> m01 a = m01 b -> m02 a = m02 b -> m10 a = m10 b -> m11 a = m11 b -> m12 a = m12 b ->
  m20 a = m20 b -> m21 a = m21 b -> m22 a = m22 b -> a = b.
Proof. intros [] []. cbn. intros. subst. reflexivity. Qed.
Lemma vec_eq : forall a b, vx a = vx b -> vy a = vy b -> vz a = vz b -> a = b.
Proof. intros [] []. cbn. intros. subst. reflexivity. Qed.

Lemma mm_assoc : forall a b c, mm a (mm b c) = mm (mm a b) c.
Proof. intros a b c. apply mat_eq; comps; ring. Qed.
Lemma mm_eye_l : forall a, mm eye a = a.
Proof. intros a. apply mat_eq; comps; ring. Qed.
Lemma mm_eye_r : forall a, mm a eye = a.
Proof. intros a. apply mat_eq; comps; ring. Qed.
Lemma mv_mm : forall a b v, mv (mm a b) v = mv a (mv b v).
Proof. intros. apply vec_eq; comps; ring. Qed.
Lemma mv_eye : forall v, mv eye v = v.
Proof. intros. apply vec_eq; comps; ring. Qed.
Lemma mv_vadd : forall a v w, mv a (vadd v w) = vadd (mv a v) (mv a w).
Proof. intros. apply vec_eq; comps; ring. Qed.
Lemma mv_vsub : forall a v w, mv a (vsub v w) = vsub (mv a v) (mv a w).
Proof. intros. apply vec_eq; comps; ring. Qed.
Lemma mv_scale : forall a k v, mv a (vscale k v) = vscale k (mv a v).
Proof. intros. apply vec_eq; comps; ring. Qed.
Lemma transpose_mm : forall a b, transpose (mm a b) = mm (transpose b) (transpose a).
Proof. intros. apply mat_eq; comps; ring. Qed.
Lemma det_mm : forall a b, det (mm a b) = det a * det b.
Proof. intros. comps. ring. Qed.
Lemma minv_r : forall a, det a <> 0 -> mm a (minv a) = eye.
Proof. intros a H. apply mat_eq; unfold minv; cbv zeta; comps; field; exact H. Qed.
Lemma minv_l : forall a, det a <> 0 -> mm (minv a) a = eye.
Proof. intros a H. apply mat_eq; unfold minv; cbv zeta; comps; field; exact H. Qed.
Lemma minv_proper : forall a, proper a -> minv a = transpose a.
Proof.
  intros a [H1 H2]. rewrite <- (mm_eye_r (minv a)), <- H1, mm_assoc, minv_l by lra. apply mm_eye_l.
Qed.
Lemma proper_transpose : forall a, proper a -> mm (transpose a) a = eye.
Proof. intros a H. rewrite <- (minv_proper a H). destruct H. apply minv_l. lra. Qed.
Lemma det_transpose : forall a, det (transpose a) = det a.
Proof. intros. comps. ring. Qed.
Lemma transpose_transpose : forall a, transpose (transpose a) = a.
Proof. intros []. reflexivity. Qed.
Lemma proper_mm : forall a b, proper a -> proper b -> proper (mm a b).
Proof.
  intros a b [A1 A2] [B1 B2]. split.
  - rewrite transpose_mm, mm_assoc, <- (mm_assoc a b), B1, mm_eye_r. exact A1.
  - rewrite det_mm, A2, B2. ring.
Qed.
Lemma proper_minv : forall a, proper a -> proper (minv a).
Proof.
  intros a H. rewrite (minv_proper a H). split.
  - rewrite transpose_transpose. apply proper_transpose. exact H.
  - rewrite det_transpose. apply H.
Qed.
Lemma dot_proper : forall a v w, proper a -> dot (mv a v) (mv a w) = dot v w.
Proof.
  intros a v w H. pose proof (proper_transpose a H) as E.
  assert (E2 : dot (mv a v) (mv a w) = dot v (mv (mm (transpose a) a) w)) by (comps; ring).
  rewrite E2, E, mv_eye. reflexivity.
Qed.
Lemma cross_proper : forall a v w, proper a -> cross (mv a v) (mv a w) = mv a (cross v w).
Proof.
  intros a v w H. pose proof (minv_proper a H) as E. destruct H as [H1 H2].
  assert (E0 : transpose (minv a) = a) by (rewrite E; apply transpose_transpose).
  assert (K : cross (mv a v) (mv a w) = vscale (det a) (mv (transpose (minv a)) (cross v w))).
  { unfold minv; cbv zeta. assert (det a <> 0) by lra. apply vec_eq; comps; field; comps; assumption. }
  rewrite K, H2, E0. apply vec_eq; comps; ring.
Qed.

(** ** Angles *)
Lemma tan_minus_PI : forall x, tan (x - PI) = tan x.
Proof.
  intros x. unfold tan. replace (sin (x - PI)) with (- sin x) by (rewrite sin_minus, cos_PI, sin_PI; ring).
  replace (cos (x - PI)) with (- cos x) by (rewrite cos_minus, cos_PI, sin_PI; ring).
  destruct (Req_dec (cos x) 0) as [E|E]; [rewrite E, Ropp_0; unfold Rdiv; rewrite Rinv_0; ring|field; exact E].
Qed.
Lemma tan_plus_PI : forall x, tan (x + PI) = tan x.
Proof. intros x. replace x with ((x + PI) - PI) at 2 by ring. symmetry. apply tan_minus_PI. Qed.
Lemma cos_neg_left : forall x, - PI < x -> x < - (PI / 2) -> cos x < 0.
Proof. intros x H1 H2. rewrite <- cos_neg. apply cos_lt_0; lra. Qed.
Lemma cos_nonneg_range : forall x, - PI < x <= PI -> 0 < cos x -> - (PI / 2) < x < PI / 2.
Proof.
  intros x H Hc. pose proof PI_RGT_0 as Hpi.
  destruct (Rle_or_lt (PI / 2) x) as [Ha|Ha].
  - destruct (Req_dec x (PI / 2)) as [->|]; [rewrite cos_PI2 in Hc; lra|]. pose proof (cos_lt_0 x ltac:(lra) ltac:(lra)). lra.
  - destruct (Rle_or_lt x (- (PI / 2))) as [Hb|Hb]; [|lra].
    destruct (Req_dec x (- (PI / 2))) as [->|]; [rewrite cos_neg, cos_PI2 in Hc; lra|]. pose proof (cos_neg_left x ltac:(lra) ltac:(lra)). lra.
Qed.
Lemma cos_neg_range : forall x, - PI < x <= PI -> cos x < 0 -> x < - (PI / 2) \/ PI / 2 < x.
Proof.
  intros x H Hc. destruct (Rle_or_lt x (PI / 2)) as [Ha|Ha]; [|right; lra]. destruct (Rle_or_lt (- (PI / 2)) x) as [Hb|Hb]; [|left; lra].
  pose proof (cos_ge_0 x ltac:(lra) ltac:(lra)). lra.
Qed.

(** The angle of a point given in polar coordinates *)
Lemma atan2_polar : forall r t, 0 < r -> - PI < t <= PI -> atan2 (r * sin t) (r * cos t) = t.
Proof.
  intros r t Hr Ht. unfold atan2. pose proof PI_RGT_0 as Hpi.
  assert (Hq : cos t <> 0 -> r * sin t / (r * cos t) = tan t) by (intros Hc; unfold tan; field; split; lra).
  destruct (Rlt_dec 0 (r * cos t)) as [Hp|Hp].
  - assert (Hc : 0 < cos t) by (apply (Rmult_lt_reg_l r); lra). rewrite Hq by lra. apply atan_tan. apply cos_nonneg_range; assumption.
  - destruct (Rlt_dec (r * cos t) 0) as [Hn|Hn].
    + assert (Hc : cos t < 0) by (apply (Rmult_lt_reg_l r); lra). rewrite Hq by lra.
      destruct (cos_neg_range t Ht Hc) as [Ha|Ha].
      * assert (Hs : sin t < 0). { replace (sin t) with (- sin (- t)) by (rewrite sin_neg; ring). pose proof (sin_gt_0 (- t) ltac:(lra) ltac:(lra)). lra. }
        destruct (Rle_dec 0 (r * sin t)) as [Hx|Hx]; [exfalso; pose proof (Rmult_lt_compat_l r _ _ Hr Hs); lra|].
        rewrite <- tan_plus_PI, atan_tan by lra. ring.
      * assert (Hs : 0 <= sin t) by (apply sin_ge_0; lra).
        destruct (Rle_dec 0 (r * sin t)) as [Hx|Hx]; [|exfalso; apply Hx; apply Rmult_le_pos; lra].
        rewrite <- tan_minus_PI, atan_tan by lra. ring.
    + assert (Hc : cos t = 0).
      { destruct (Rtotal_order (cos t) 0) as [H|[H|H]]; [|exact H|].
        - exfalso. apply Hn. pose proof (Rmult_lt_compat_l r _ _ Hr H). lra.
        - exfalso. apply Hp. apply Rmult_lt_0_compat; lra. }
      assert (Hs : t = PI / 2 \/ t = - (PI / 2)).
      { destruct (Rle_or_lt 0 t) as [H0|H0].
        - left. destruct (Rtotal_order t (PI / 2)) as [H|[H|H]]; [|exact H|].
          + pose proof (cos_gt_0 t ltac:(lra) ltac:(lra)). lra.
          + pose proof (cos_lt_0 t ltac:(lra) ltac:(lra)). lra.
        - right. destruct (Rtotal_order t (- (PI / 2))) as [H|[H|H]]; [|exact H|].
          + pose proof (cos_neg_left t ltac:(lra) ltac:(lra)). lra.
          + pose proof (cos_gt_0 t ltac:(lra) ltac:(lra)). lra. }
      destruct Hs as [-> | ->].
      * rewrite sin_PI2. destruct (Rlt_dec 0 (r * 1)); [reflexivity|lra].
      * rewrite sin_neg, sin_PI2. destruct (Rlt_dec 0 (r * - (1))); [lra|]. destruct (Rlt_dec (r * - (1)) 0); [reflexivity|lra].
Qed.
(** Every point has polar coordinates *)
Lemma polar : forall x y, x ^ 2 + y ^ 2 = 1 -> exists t, - PI < t <= PI /\ x = cos t /\ y = sin t.
Proof.
  intros x y H. pose proof PI_RGT_0 as Hpi. assert (Hx : -1 <= x <= 1) by (split; nra).
  destruct (acos_bound x) as [B1 B2]. pose proof (cos_acos x Hx) as Ec. pose proof (sin_acos x Hx) as Es.
  assert (Ey : sqrt (1 - Rsqr x) = Rabs y).
  { replace (1 - Rsqr x) with (Rsqr y) by (unfold Rsqr; nra). apply sqrt_Rsqr_abs. }
  rewrite Ey in Es. destruct (Rle_or_lt 0 y) as [Hy|Hy].
  - exists (acos x). rewrite Rabs_pos_eq in Es by exact Hy. split; [lra|]. split; congruence.
  - exists (- acos x). rewrite Rabs_left in Es by exact Hy. rewrite cos_neg, sin_neg. split; [|split; [congruence|lra]].
    split; [|lra]. destruct (Req_dec (acos x) PI) as [E|E]; [|lra]. rewrite E, sin_PI in Es. lra.
Qed.
Lemma atan2_unit : forall x y, x ^ 2 + y ^ 2 = 1 -> - PI < atan2 y x <= PI /\ cos (atan2 y x) = x /\ sin (atan2 y x) = y.
Proof.
  intros x y H. destruct (polar x y H) as [t [Ht [-> ->]]]. replace (sin t) with (1 * sin t) by ring. replace (cos t) with (1 * cos t) by ring.
  rewrite atan2_polar by lra. split; [exact Ht|]. split; ring.
Qed.
Lemma atan2_scaled : forall r x y, 0 < r -> x ^ 2 + y ^ 2 = r ^ 2 -> - PI < atan2 y x <= PI /\ r * cos (atan2 y x) = x /\ r * sin (atan2 y x) = y.
Proof.
  intros r x y Hr H. assert (H1 : (x / r) ^ 2 + (y / r) ^ 2 = 1) by (unfold Rdiv; rewrite !Rpow_mult_distr, <- Rmult_plus_distr_r, H, <- Rpow_mult_distr, Rinv_r, pow1 by lra; reflexivity).
  destruct (polar _ _ H1) as [t [Ht [Ex Ey]]]. assert (x = r * cos t) by (rewrite <- Ex; field; lra). assert (y = r * sin t) by (rewrite <- Ey; field; lra).
  subst x y. rewrite atan2_polar by lra. split; [exact Ht|]. split; reflexivity.
Qed.

(** ** Rotations from angles and quaternions *)
Ltac squares := repeat match goal with
  | |- context [?x ^ 2] => replace (x ^ 2) with (x * x) by ring
  | H : context [?x ^ 2] |- _ => replace (x ^ 2) with (x * x) in H by ring
  end.
Lemma sc2 : forall t, sin t * sin t + cos t * cos t = 1.
Proof. intros t. pose proof (sin2_cos2 t) as H. unfold Rsqr in H. exact H. Qed.
Lemma rpy_proper : forall p, proper (rotation_from_rpy p).
Proof.
  intros [x y z]. pose proof (sc2 x) as Hx. pose proof (sc2 y) as Hy. pose proof (sc2 z) as Hz.
  unfold rotation_from_rpy. cbn [vx vy vz]. revert Hx Hy Hz. generalize (sin x) (cos x) (sin y) (cos y) (sin z) (cos z). clear.
  intros sx cx sy cy sz cz Hx Hy Hz. split; [apply mat_eq|]; comps; nsatz.
Qed.
Lemma quaternion_proper : forall q, unit_quaternion q -> proper (rotation_from_quaternion q false).
Proof.
  intros [a b c d]. unfold unit_quaternion, rotation_from_quaternion. cbn [q0 q1 q2 q3]. intros H. squares. split; [apply mat_eq|]; comps; nsatz.
Qed.
Lemma qnorm_sqr : forall q, qnorm q ^ 2 = q0 q ^ 2 + q1 q ^ 2 + q2 q ^ 2 + q3 q ^ 2.
Proof.
  intros q. unfold qnorm. rewrite <- Rsqr_pow2. apply Rsqr_sqrt.
  pose proof (pow2_ge_0 (q0 q)). pose proof (pow2_ge_0 (q1 q)). pose proof (pow2_ge_0 (q2 q)). pose proof (pow2_ge_0 (q3 q)). lra.
Qed.
Lemma normalised_unit : forall q, qnorm q <> 0 -> unit_quaternion (qscale (/ qnorm q) q).
Proof.
  intros q H. unfold unit_quaternion, qscale. cbn [q0 q1 q2 q3]. rewrite !Rpow_mult_distr.
  replace (q0 q ^ 2 * (/ qnorm q) ^ 2 + q1 q ^ 2 * (/ qnorm q) ^ 2 + q2 q ^ 2 * (/ qnorm q) ^ 2 + q3 q ^ 2 * (/ qnorm q) ^ 2)
    with (qnorm q ^ 2 * (/ qnorm q) ^ 2) by (rewrite qnorm_sqr; ring).
  rewrite <- Rpow_mult_distr, Rinv_r, pow1 by exact H. reflexivity.
Qed.
Lemma quaternion_normalised_proper : forall q, qnorm q <> 0 -> proper (rotation_from_quaternion q true).
Proof.
  intros q H. exact (quaternion_proper _ (normalised_unit q H)).
Qed.
Lemma quaternion_scale : forall k q, 0 < k -> qnorm q <> 0 -> rotation_from_quaternion (qscale k q) true = rotation_from_quaternion q true.
Proof.
  intros k q Hk Hq. assert (E : qnorm (qscale k q) = k * qnorm q).
  { unfold qnorm at 1. unfold qscale. cbn [q0 q1 q2 q3]. replace ((q0 q * k) ^ 2 + (q1 q * k) ^ 2 + (q2 q * k) ^ 2 + (q3 q * k) ^ 2) with ((k * qnorm q) ^ 2)
      by (rewrite Rpow_mult_distr, qnorm_sqr; ring). rewrite <- Rsqr_pow2. apply sqrt_Rsqr. apply Rmult_le_pos; [lra|apply sqrt_pos]. }
  unfold rotation_from_quaternion. replace (qscale (/ qnorm (qscale k q)) (qscale k q)) with (qscale (/ qnorm q) q); [reflexivity|].
  rewrite E. unfold qscale. cbn [q0 q1 q2 q3]. f_equal; field; lra.
Qed.

(** ** Reading angles *)
Lemma rpy_read : forall p, - PI < vx p <= PI -> - (PI / 2) < vy p < PI / 2 -> - PI < vz p <= PI -> rotation_rpy (rotation_from_rpy p) = p.
Proof.
  intros [x y z]. cbn [vx vy vz]. intros Hx Hy Hz. pose proof PI_RGT_0 as Hpi. assert (Hc : 0 < cos y) by (apply cos_gt_0; lra).
  unfold rotation_rpy, rotation_from_rpy. cbn [m00 m01 m02 m10 m11 m12 m20 m21 m22 vx vy vz].
  assert (E : sqrt ((cos z * cos y) ^ 2 + (sin z * cos y) ^ 2) = cos y).
  { replace ((cos z * cos y) ^ 2 + (sin z * cos y) ^ 2) with (Rsqr (cos y)); [apply sqrt_Rsqr; lra|].
    rewrite !Rpow_mult_distr. unfold Rsqr. pose proof (sc2 z). squares. nsatz. }
  rewrite E. destruct (Req_EM_T (cos y) 0) as [H0|_]; [lra|].
  replace (cos y * sin x / cos y) with (1 * sin x) by (field; lra). replace (cos y * cos x / cos y) with (1 * cos x) by (field; lra).
  replace (sin z * cos y / cos y) with (1 * sin z) by (field; lra). replace (cos z * cos y / cos y) with (1 * cos z) by (field; lra).
  replace (- - sin y) with (1 * sin y) by ring. rewrite <- (Rmult_1_l (cos y)). rewrite !atan2_polar by lra. reflexivity.
Qed.
Lemma cofactors : forall a, proper a ->
  m00 a = m11 a * m22 a - m12 a * m21 a /\ m01 a = m12 a * m20 a - m10 a * m22 a /\ m02 a = m10 a * m21 a - m11 a * m20 a /\
  m10 a = m02 a * m21 a - m01 a * m22 a /\ m11 a = m00 a * m22 a - m02 a * m20 a /\ m12 a = m01 a * m20 a - m00 a * m21 a /\
  m20 a = m01 a * m12 a - m02 a * m11 a /\ m21 a = m02 a * m10 a - m00 a * m12 a /\ m22 a = m00 a * m11 a - m01 a * m10 a.
Proof.
  intros a H. pose proof (minv_proper a H) as E. destruct H as [_ H]. unfold minv in E. cbv zeta in E. rewrite H in E. unfold transpose in E.
  injection E as E0 E1 E2 E3 E4 E5 E6 E7 E8. unfold Rdiv in *. rewrite Rinv_1, Rmult_1_r in *.
  repeat split; symmetry; assumption.
Qed.
Lemma mat_components : forall a b, a = b -> m00 a = m00 b /\ m01 a = m01 b /\ m02 a = m02 b /\ m10 a = m10 b /\ m11 a = m11 b /\ m12 a = m12 b /\
  m20 a = m20 b /\ m21 a = m21 b /\ m22 a = m22 b.
Proof. intros a b ->. repeat split. Qed.
Lemma squares_zero : forall x y, x * x + y * y = 0 -> x = 0 /\ y = 0.
Proof. intros x y H. split; [apply (Rplus_sqr_eq_0_l x y)|apply (Rplus_sqr_eq_0_l y x)]; unfold Rsqr; lra. Qed.
Lemma rpy_write : forall a, proper a -> m20 a <> 1 -> rotation_from_rpy (rotation_rpy a) = a.
Proof.
  intros a H Hn. destruct (cofactors a H) as [C0 [C1 [C2 [C3 [C4 [C5 [C6 [C7 C8]]]]]]]].
  destruct (mat_components _ _ (proper_transpose a H)) as [T0 [T1 [T2 [T3 [T4 [T5 [T6 [T7 T8]]]]]]]].
  destruct (mat_components _ _ (proj1 H)) as [O0 [O1 [O2 [O3 [O4 [O5 [O6 [O7 O8]]]]]]]]. comps.
  unfold rotation_rpy. set (c := sqrt (m00 a ^ 2 + m10 a ^ 2)).
  assert (Hc2 : c ^ 2 = m00 a ^ 2 + m10 a ^ 2).
  { unfold c. rewrite <- Rsqr_pow2. apply Rsqr_sqrt. pose proof (pow2_ge_0 (m00 a)). pose proof (pow2_ge_0 (m10 a)). lra. }
  assert (Hc0 : 0 <= c) by apply sqrt_pos. clearbody c.
  destruct (Req_EM_T c 0) as [E|E].
  - assert (Z0 : m00 a = 0 /\ m10 a = 0) by (apply squares_zero; rewrite E in Hc2; lra). destruct Z0 as [Z0 Z1].
    assert (Z2 : m20 a = -1).
    { assert ((m20 a - 1) * (m20 a + 1) = 0) by (rewrite Z0, Z1 in T0; lra). destruct (Rmult_integral _ _ H0) as [K|K]; [exfalso; apply Hn; lra|lra]. }
    assert (Z3 : m21 a = 0 /\ m22 a = 0) by (apply squares_zero; rewrite Z2 in O8; lra). destruct Z3 as [Z3 Z4].
    destruct (atan2_unit (m11 a) (m01 a)) as [_ [Ec Es]]; [rewrite Z3 in T4; lra|].
    unfold rotation_from_rpy. cbn [vx vy vz]. replace (1 / 2 * PI) with (PI / 2) by field.
    rewrite Ec, Es, sin_0, cos_0, sin_PI2, cos_PI2. apply mat_eq; cbn [m00 m01 m02 m10 m11 m12 m20 m21 m22]; rewrite ?C2, ?C5, ?Z0, ?Z1, ?Z2, ?Z3, ?Z4; ring.
  - assert (Hp : 0 < c) by lra.
    destruct (atan2_unit (m22 a / c) (m21 a / c)) as [_ [Ec1 Es1]].
    { apply (Rmult_eq_reg_r (c ^ 2)); [|apply pow_nonzero; exact E]. field_simplify; [|exact E]. rewrite Hc2. lra. }
    destruct (atan2_unit c (- m20 a)) as [_ [Ec2 Es2]]; [rewrite Hc2; lra|].
    destruct (atan2_unit (m00 a / c) (m10 a / c)) as [_ [Ec3 Es3]].
    { apply (Rmult_eq_reg_r (c ^ 2)); [|apply pow_nonzero; exact E]. field_simplify; [|exact E]. rewrite Hc2. lra. }
    unfold rotation_from_rpy. cbn [vx vy vz]. rewrite Ec1, Es1, Ec2, Es2, Ec3, Es3.
    assert (K : c * c = 1 - m20 a * m20 a) by (replace (c * c) with (c ^ 2) by ring; rewrite Hc2; lra).
    apply mat_eq; cbn [m00 m01 m02 m10 m11 m12 m20 m21 m22]; try (field; exact E); try lra.
    + apply (Rmult_eq_reg_r (c * c)); [|apply Rmult_integral_contrapositive_currified; exact E]. replace ((m00 a / c * - m20 a * (m21 a / c) - m10 a / c * (m22 a / c)) * (c * c))
        with (- m00 a * m20 a * m21 a - m10 a * m22 a) by (field; exact E). rewrite K. clear -C1 C5. nsatz.
    + apply (Rmult_eq_reg_r (c * c)); [|apply Rmult_integral_contrapositive_currified; exact E]. replace ((m00 a / c * - m20 a * (m22 a / c) + m10 a / c * (m21 a / c)) * (c * c))
        with (- m00 a * m20 a * m22 a + m10 a * m21 a) by (field; exact E). rewrite K. clear -C2 C4. nsatz.
    + apply (Rmult_eq_reg_r (c * c)); [|apply Rmult_integral_contrapositive_currified; exact E]. replace ((m10 a / c * - m20 a * (m21 a / c) + m00 a / c * (m22 a / c)) * (c * c))
        with (- m10 a * m20 a * m21 a + m00 a * m22 a) by (field; exact E). rewrite K. clear -C2 C4. nsatz.
    + apply (Rmult_eq_reg_r (c * c)); [|apply Rmult_integral_contrapositive_currified; exact E]. replace ((m10 a / c * - m20 a * (m22 a / c) - m00 a / c * (m21 a / c)) * (c * c))
        with (- m10 a * m20 a * m22 a - m00 a * m21 a) by (field; exact E). rewrite K. clear -C1 C5. nsatz.
Qed.

(** ** Directions *)
Lemma dot_pos : forall v, 0 <= dot v v.
Proof. intros v. comps. nra. Qed.
Lemma norm_sqr : forall v, norm v * norm v = dot v v.
Proof. intros v. apply sqrt_sqrt. apply dot_pos. Qed.
Lemma norm_zero : forall v, norm v = 0 -> v = zero.
Proof.
  intros v H. pose proof (norm_sqr v) as E. rewrite H in E. comps. assert (Hx : vx v = 0 /\ vy v = 0) by (apply squares_zero; nra). destruct Hx as [Hx Hy].
  assert (Hz : vz v = 0) by (rewrite Hx, Hy in E; nra). apply vec_eq; cbn; assumption.
Qed.
Lemma norm_one : forall v, norm v = 1 <-> dot v v = 1.
Proof.
  intros v. split; intros H.
  - rewrite <- norm_sqr, H. ring.
  - unfold norm. rewrite H. apply sqrt_1.
Qed.
Lemma normalised : forall v, norm v <> 0 -> dot (vscale (/ norm v) v) (vscale (/ norm v) v) = 1.
Proof.
  intros v H. replace (dot (vscale (/ norm v) v) (vscale (/ norm v) v)) with (dot v v * (/ norm v * / norm v)) by (comps; ring).
  rewrite <- norm_sqr. field. exact H.
Qed.
Lemma spherical_unit : forall a z, dot (From_Spherical a z) (From_Spherical a z) = 1.
Proof. intros a z. unfold From_Spherical. comps. pose proof (sc2 a). pose proof (sc2 z). nsatz. Qed.
Lemma spherical_read : forall a z, - PI < a <= PI -> 0 < z < PI -> to_spherical (From_Spherical a z) = (a, z).
Proof.
  intros a z Ha Hz. unfold to_spherical, From_Spherical. cbn [vx vy vz]. rewrite atan2_polar; [|apply sin_gt_0; lra|exact Ha]. rewrite acos_cos by lra. reflexivity.
Qed.
Lemma spherical_write : forall v, dot v v = 1 -> (let '(a, z) := to_spherical v in From_Spherical a z) = v.
Proof.
  intros v H. unfold to_spherical, From_Spherical. assert (Hz : -1 <= vz v <= 1) by (comps; split; nra).
  pose proof (cos_acos _ Hz) as Ec. pose proof (sin_acos _ Hz) as Es.
  set (r := sqrt (1 - Rsqr (vz v))) in *. assert (Hr0 : 0 <= r) by apply sqrt_pos.
  assert (Hr : r * r = vx v * vx v + vy v * vy v).
  { unfold r. rewrite sqrt_sqrt; [unfold Rsqr; comps; lra|unfold Rsqr; comps; nra]. }
  clearbody r. apply vec_eq; cbn [vx vy vz]; [| |exact Ec]; rewrite Es.
  - destruct (Req_dec r 0) as [E|E].
    + rewrite E in *. destruct (squares_zero (vx v) (vy v)) as [E1 _]; [lra|]. rewrite E1. ring.
    + destruct (atan2_scaled r (vx v) (vy v)) as [_ [K _]]; [lra|squares; lra|]. exact K.
  - destruct (Req_dec r 0) as [E|E].
    + rewrite E in *. destruct (squares_zero (vx v) (vy v)) as [_ E1]; [lra|]. rewrite E1. ring.
    + destruct (atan2_scaled r (vx v) (vy v)) as [_ [_ K]]; [lra|squares; lra|]. exact K.
Qed.

(** ** Pointing *)
Lemma frame_proper : forall s f, dot s s = 1 -> dot f f = 1 -> dot s f = 0 ->
  let u := cross f s in proper (M (vx s) (vx u) (vx f) (vy s) (vy u) (vy f) (vz s) (vz u) (vz f)).
Proof.
  intros [a b c] [x y z] Hs Hf Hd. comps. cbv zeta. set (m := M _ _ _ _ _ _ _ _ _).
  assert (T : mm (transpose m) m = eye) by (apply mat_eq; unfold m; comps; nsatz).
  assert (D : det m = 1).
  { unfold m. clear T m. comps. replace 1 with ((a * a + b * b + c * c) * (x * x + y * y + z * z) - (a * x + b * y + c * z) * (a * x + b * y + c * z)) by (rewrite Hs, Hf, Hd; ring). ring. }
  split; [|exact D]. assert (E : transpose m = minv m) by (rewrite <- (mm_eye_r (transpose m)), <- (minv_r m) by lra; rewrite mm_assoc, T; apply mm_eye_l).
  rewrite E. apply minv_r. lra.
Qed.
Lemma lookat_spec : forall a target up, let d := vsub target (translation a) in norm (cross up d) <> 0 ->
  rigid (lookat a target up) /\ translation (lookat a target up) = translation a /\
  mv (rotation (lookat a target up)) (V 0 0 1) = vscale (/ norm d) d /\
  dot (mv (rotation (lookat a target up)) (V 1 0 0)) up = 0 /\ 0 < dot (mv (rotation (lookat a target up)) (V 0 1 0)) up.
Proof.
  intros a target up d H.
  assert (Hd : norm d <> 0).
  { intros E. apply H. rewrite (norm_zero _ E). unfold norm. replace (dot (cross up zero) (cross up zero)) with 0 by (comps; ring). apply sqrt_0. }
  assert (Hu : norm up <> 0).
  { intros E. apply H. rewrite (norm_zero _ E). unfold norm. replace (dot (cross zero d) (cross zero d)) with 0 by (comps; ring). apply sqrt_0. }
  unfold lookat. fold d. destruct (Req_EM_T (norm d) 0) as [|_]; [contradiction|].
  set (f := vscale (/ norm d) d). set (v := vscale (/ norm up) up).
  assert (Hf : dot f f = 1) by (apply normalised; exact Hd).
  assert (Hc : norm (cross v f) <> 0).
  { intros E. apply H. apply norm_zero in E. assert (K : cross up d = vscale (norm up * norm d) (cross v f)).
    { unfold v, f. apply vec_eq; comps; field; split; assumption. }
    rewrite K, E. generalize (norm up * norm d). intros k. unfold norm. replace (dot (vscale k zero) (vscale k zero)) with 0 by (comps; ring). apply sqrt_0. }
  destruct (Req_EM_T (norm (cross v f)) 0) as [|_]; [contradiction|].
  set (s := vscale (/ norm (cross v f)) (cross v f)).
  assert (Hs : dot s s = 1) by (apply normalised; exact Hc).
  assert (Hsf : dot s f = 0) by (unfold s; comps; ring).
  assert (Hsu : dot s up = 0).
  { assert (K : dot s v = 0) by (unfold s; comps; ring). replace (dot s up) with (norm up * dot s v); [rewrite K; ring|]. unfold v. comps. field. exact Hu. }
  split; [exact (frame_proper s f Hs Hf Hsf)|]. split; [reflexivity|]. cbn [rotation]. split; [apply vec_eq; comps; ring|]. split.
  - replace (mv _ (V 1 0 0)) with s by (apply vec_eq; comps; ring). exact Hsu.
  - replace (mv _ (V 0 1 0)) with (cross f s) by (apply vec_eq; comps; ring).
    assert (K : dot (cross f s) up = norm up * norm (cross v f)).
    { assert (K1 : dot (cross f s) v = / norm (cross v f) * dot (cross v f) (cross v f)) by (unfold s; comps; ring).
      assert (K2 : dot (cross f s) up = norm up * dot (cross f s) v) by (unfold v; comps; field; exact Hu).
      rewrite K2, K1, <- norm_sqr. field. exact Hc. }
    rewrite K. assert (0 < norm up) by (pose proof (sqrt_pos (dot up up)); unfold norm in *; lra).
    assert (0 < norm (cross v f)) by (pose proof (sqrt_pos (dot (cross v f) (cross v f))); unfold norm in *; lra). apply Rmult_lt_0_compat; assumption.
Qed.

(** ** Quaternions read from a matrix *)
Lemma quaternion_read : forall q, unit_quaternion q -> 1 / 2 < q0 q ->
  rotation_quaternion (rotation_from_quaternion q false) = Q4 (/ (16 * q0 q)) (q1 q) (q2 q) (q3 q).
Proof.
  intros [a b c d]. unfold unit_quaternion, rotation_from_quaternion. cbn [q0 q1 q2 q3]. intros H Ha. unfold rotation_quaternion. cbn [m00 m01 m02 m10 m11 m12 m20 m21 m22].
  assert (Et : 1 - 2 * (c ^ 2 + d ^ 2) + (1 - 2 * (b ^ 2 + d ^ 2)) + (1 - 2 * (b ^ 2 + c ^ 2)) = 4 * (a * a) - 1) by (squares; lra).
  rewrite Et. destruct (Rlt_dec 0 (4 * (a * a) - 1)) as [_|Hn]; [|exfalso; apply Hn; nra].
  replace (4 * (a * a) - 1 + 1) with (Rsqr (2 * a)) by (unfold Rsqr; ring). rewrite sqrt_Rsqr by lra. f_equal; field; lra.
Qed.
