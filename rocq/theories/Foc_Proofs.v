From Coq Require Import List Reals Lra.
From Coquelicot Require Import Complex.
From Verif Require Import Base Rot_Model Rot_Spec Rot_Proofs Beam_Model Foc_Model Foc_Spec.
Open Scope R_scope.

Lemma norm_zero v : norm v = 0 <-> v = zero.
Proof.
  unfold norm. split.
  - intro H. destruct v as [x y z]. unfold dot in H. cbn in H. apply sqrt_eq_0 in H; [|nra]. unfold zero. f_equal; nra.
  - intros ->. unfold dot, zero. cbn. replace (0 * 0 + 0 * 0 + 0 * 0) with 0 by ring. apply sqrt_0.
Qed.
Lemma vsub_zero a b : vsub a b = zero <-> a = b.
Proof.
  destruct a, b. unfold vsub, zero. cbn. split; intro H; [injection H as H1 H2 H3; f_equal; lra|injection H as -> -> ->; f_equal; ring].
Qed.
Lemma norm_pos v : v <> zero -> 0 < norm v.
Proof. intro N. destruct (Rle_lt_or_eq_dec 0 (norm v) (sqrt_pos _)) as [L|E]; [exact L|]. exfalso. apply N. apply norm_zero. symmetry. exact E. Qed.
Lemma norm_scaled k v : 0 <= k -> norm (vscale k v) = k * norm v.
Proof.
  intro H. unfold norm. replace (dot (vscale k v) (vscale k v)) with (k * k * dot v v) by (destruct v; unfold dot, vscale; cbn; ring).
  rewrite sqrt_mult_alt by nra. rewrite sqrt_square by exact H. reflexivity.
Qed.
Lemma dot_one v : norm v = 1 -> dot v v = 1.
Proof. unfold norm. intro H. rewrite <- (sqrt_sqrt (dot v v)); [rewrite H; ring|]. destruct v; unfold dot; cbn; nra. Qed.

Lemma heads_angles own track t d : heads own (track t) d -> device_angles own track t = Ok (to_spherical d).
Proof.
  intros [H1 (r & Hr & E)]. unfold device_angles, normalized. rewrite E. rewrite norm_scaled, H1, Rmult_1_r by lra. destruct (Req_EM_T r 0) as [Z|_]; [lra|]. cbn. f_equal. f_equal.
  destruct d as [x y z]. unfold vscale. cbn. f_equal; field; lra.
Qed.
Lemma spherical_of d : norm d = 1 -> From_Spherical (fst (to_spherical d)) (snd (to_spherical d)) = d.
Proof. intro H. pose proof (spherical_write d (dot_one d H)) as K. destruct (to_spherical d). exact K. Qed.
Lemma spherical_v d : norm d = 1 -> V (cos (fst (to_spherical d)) * sin (snd (to_spherical d))) (sin (fst (to_spherical d)) * sin (snd (to_spherical d))) (cos (snd (to_spherical d))) = d.
Proof. intro H. rewrite <- (spherical_of d H) at 6. unfold From_Spherical. f_equal; ring. Qed.
