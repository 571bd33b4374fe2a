(** Lemmas on channels that delay signals. *)
From Coq Require Import List Reals ZArith Bool Arith Lia Lra.
From Coquelicot Require Import Complex.
From Verif Require Import Base Cplx Rot_Model Ant_Model Rot_Proofs Cons_Model Cons_Proofs Chan_Model Nz_Model Nz_Spec Nz_Proofs Nz_Props Dly_Model Dly_Spec.
Import ListNotations.
Open Scope R_scope.

Lemma norm_distance : forall a b, norm (vsub a b) = distance a b.
Proof. intros a b. unfold norm, distance, dot, vsub. cbn [vx vy vz]. f_equal. ring. Qed.
Lemma distance_nonneg : forall a b, 0 <= distance a b.
Proof. intros. apply sqrt_pos. Qed.
Lemma distance_sym : forall a b, distance a b = distance b a.
Proof. intros a b. unfold distance. f_equal. ring. Qed.
Lemma distance_zero : forall a b, distance a b = 0 <-> a = b.
Proof.
  intros [a1 a2 a3] [b1 b2 b3]. unfold distance. cbn [vx vy vz]. split.
  - intros H. assert (P1 := pow2_ge_0 (a1 - b1)). assert (P2 := pow2_ge_0 (a2 - b2)). assert (P3 := pow2_ge_0 (a3 - b3)). apply sqrt_eq_0 in H; [|lra].
    assert (a1 = b1) by nra. assert (a2 = b2) by nra. assert (a3 = b3) by nra. subst. reflexivity.
  - intros H. injection H as -> -> ->. replace ((b1 - b1) ^ 2 + (b2 - b2) ^ 2 + (b3 - b3) ^ 2) with 0 by ring. apply sqrt_0.
Qed.
Lemma norm_triangle : forall a b, norm (vadd a b) <= norm a + norm b.
Proof.
  intros a b. assert (Pa : 0 <= norm a) by apply sqrt_pos. assert (Pb : 0 <= norm b) by apply sqrt_pos.
  apply Rsqr_incr_0_var; [|lra]. unfold Rsqr. rewrite norm_sqr. assert (C := vec_cauchy a b). assert (A := Rle_abs (dot a b)).
  assert (Ea := norm_sqr a). assert (Eb := norm_sqr b). replace (dot (vadd a b) (vadd a b)) with (dot a a + 2 * dot a b + dot b b) by (unfold dot, vadd; cbn [vx vy vz]; ring). nra.
Qed.
Lemma distance_triangle : forall a b c, distance a c <= distance a b + distance b c.
Proof.
  intros a b c. rewrite <- !norm_distance. replace (vsub a c) with (vadd (vsub a b) (vsub b c)); [apply norm_triangle|]. unfold vsub, vadd. cbn [vx vy vz]. f_equal; ring.
Qed.
Lemma same_place_spec : forall a b, same_place a b = true <-> a = b.
Proof.
  intros [a1 a2 a3] [b1 b2 b3]. unfold same_place. cbn [vx vy vz]. destruct (Req_EM_T a1 b1), (Req_EM_T a2 b2), (Req_EM_T a3 b3); split; intros H; subst; try reflexivity; try discriminate; injection H; intros; contradiction.
Qed.
Lemma path_gain_loss : forall gain carrier delay, carrier <> 0 -> 0 < delay -> path_gain true gain carrier delay = Ok (gain * (light / Rabs carrier / (4 * PI * (light * delay)))).
Proof.
  intros gain carrier delay Hc Hd. unfold path_gain, amplitude_path_loss, speed_of_light. destruct (Req_EM_T carrier 0); [contradiction|]. destruct (Rlt_dec 0 delay); [|lra].
  destruct (Req_EM_T (Rabs carrier) 0) as [E|_]; [exfalso; apply (Rabs_no_R0 carrier Hc); exact E|]. cbn [bind]. unfold light. do 4 f_equal. ring.
Qed.
Lemma plain_energy : forall gain delay k s, plain k -> streams s = 1%nat -> 0 < gain ->
  energy (delay_propagate (Delay (rx_antennas k) (tx_antennas k) delay (l_bandwidth k) gain (spatial_response k)) s) 0 = gain ^ 2 * energy s 0.
Proof.
  intros gain delay k s [Ht [Hr [St Sr]]] Hs Hg.
  destruct (C105_delay_snr (Delay (rx_antennas k) (tx_antennas k) delay (l_bandwidth k) gain (spatial_response k)) s 0 1 Hs) as [E _]; [cbn [d_rx]; lia|lra|exact Hg|].
  cbv zeta in E. rewrite E. unfold delay_scale. cbn [d_gain d_response]. assert (Q : sq (spatial_response k 0 0) = 1).
  { unfold spatial_response. destruct (same_place (l_rx k) (l_tx k)); [unfold sq; cbn; ring|]. rewrite sq_mult, St, Sr. ring. }
  rewrite Q. ring.
Qed.
Lemma delay_world_facts : num_scalars delay_world 0 = 1%nat /\ size delay_world 0 = 1%nat /\ Cons_Model.offset delay_world 0 = 0%nat.
Proof. repeat split. Qed.
Lemma random_delay_between : forall cdf low high d n normals waves r k, realize_delay d n normals waves = Ok r ->
  exists u, sample r (l_tx k) (l_rx k) = [u] /\ random_delay cdf (Between low high) r k = Ok (low + (high - low) * cdf u).
Proof.
  intros cdf low high d n normals waves r k E. unfold realize_delay, realize in E. change (num_scalars delay_world 0) with 1%nat in E. destruct d as [|d].
  - injection E as <-. exists (normals 0%nat). split; reflexivity.
  - destruct (Req_EM_T d 0); [discriminate|]. injection E as <-. eexists. split; reflexivity.
Qed.
