(** C123: channels that delay signals by the distance of devices, or randomly. *)
From Coq Require Import List Reals ZArith Bool Arith Lia Lra.
From Coquelicot Require Import Complex.
From Verif Require Import Base Cplx Rot_Model Ant_Model Cons_Model Cons_Proofs Chan_Model Nz_Model Nz_Spec Nz_Proofs Dly_Model Dly_Spec Dly_Proofs.
Import ListNotations.
Open Scope R_scope.

Definition some_link (a b : vec) : link := Link a b 1 1 (fun _ => RtoC 1) (fun _ => RtoC 1) 1000000000 1000000.
Example some_link_plain : forall a b, plain (some_link a b).
Proof. intros. repeat split; unfold sq; cbn; ring. Qed.

(** Signals travel at the speed of light, in both directions, never longer than via another place; the delay vanishes only for devices at the same place *)
Theorem C123_spatial_delay : forall k rx tx, light * spatial_delay k = distance (l_tx k) (l_rx k) /\ 0 <= spatial_delay k /\
  spatial_delay (turn k rx tx) = spatial_delay k /\ (spatial_delay k = 0 <-> l_tx k = l_rx k).
Proof.
  intros k rx tx. unfold spatial_delay. rewrite norm_distance. unfold speed_of_light, light. assert (P := distance_nonneg (l_tx k) (l_rx k)). split; [field|]. split; [|split].
  - apply Rmult_le_pos; [exact P|lra].
  - cbn [turn l_tx l_rx]. rewrite norm_distance, distance_sym. reflexivity.
  - rewrite <- distance_zero. split; intros H; [|rewrite H; field]. apply (Rmult_eq_reg_r (/ 299792458)); [|lra]. unfold Rdiv in H. rewrite H. ring.
Qed.
Print Assumptions C123_spatial_delay.
Theorem C123_spatial_triangle : forall a b c k1 k2 k3, l_tx k1 = a -> l_rx k1 = c -> l_tx k2 = a -> l_rx k2 = b -> l_tx k3 = b -> l_rx k3 = c ->
  spatial_delay k1 <= spatial_delay k2 + spatial_delay k3 /\ Rabs (spatial_delay k1 - spatial_delay k2) <= distance b c / light.
Proof.
  intros a b c k1 k2 k3 H1 H2 H3 H4 H5 H6. unfold spatial_delay. rewrite H1, H2, H3, H4, H5, H6, !norm_distance. unfold speed_of_light, light.
  assert (T1 := distance_triangle a b c). assert (T2 := distance_triangle a c b). rewrite (distance_sym c b) in T2. split; [lra|]. apply Rabs_le. lra.
Qed.
Print Assumptions C123_spatial_triangle.
Example C123_spatial_met : distance (V 3 0 0) (V 0 4 0) = 5.
Proof. unfold distance. cbn [vx vy vz]. replace ((3 - 0) ^ 2 + (0 - 4) ^ 2 + (0 - 0) ^ 2) with (5 * 5) by ring. apply sqrt_square. lra. Qed.

(** Free space loss: the amplitude is inverse to distance and carrier frequency; without a carrier frequency it cannot be had, even between devices at the same place, which otherwise have none *)
Theorem C123_path_gain : forall gain carrier delay,
  path_gain false gain carrier delay = Ok gain /\ path_gain true gain 0 delay = Raise RuntimeError /\
  (carrier <> 0 -> path_gain true gain carrier 0 = Ok gain) /\
  (carrier <> 0 -> 0 < delay -> exists g, path_gain true gain carrier delay = Ok g /\ g * (4 * PI * (light * delay) * Rabs carrier) = gain * light).
Proof.
  intros gain carrier delay. split; [reflexivity|]. split; [|split].
  - unfold path_gain. destruct (Req_EM_T 0 0); [reflexivity|contradiction].
  - intros H. unfold path_gain. destruct (Req_EM_T carrier 0); [contradiction|]. destruct (Rlt_dec 0 0); [lra|reflexivity].
  - intros Hc Hd. eexists. split; [apply path_gain_loss; assumption|]. assert (Rabs carrier <> 0) by (apply Rabs_no_R0; exact Hc). assert (P := PI_RGT_0). unfold light. field. repeat split; lra.
Qed.
Print Assumptions C123_path_gain.
Example C123_path_gain_met : 1000000000 <> 0 /\ 0 < 1 / 1000000.
Proof. split; lra. Qed.

(** Energies between plain antennas are inverse to the square of the distance *)
Theorem C123_inverse_square : forall gain k s, plain k -> streams s = 1%nat -> 0 < gain -> l_carrier k <> 0 -> l_tx k <> l_rx k ->
  exists y, sample_propagate true gain (spatial_delay k) k s = Ok y /\
  energy y 0 * (4 * PI * distance (l_tx k) (l_rx k) * Rabs (l_carrier k) / light) ^ 2 = gain ^ 2 * energy s 0.
Proof.
  intros gain k s Hp Hs Hg Hc Hd. destruct (C123_spatial_delay k (rx_response k) (tx_response k)) as [E [N [_ Z]]].
  assert (P : 0 < spatial_delay k) by (destruct N as [N|N]; [exact N|exfalso; apply Hd, Z; symmetry; exact N]).
  unfold sample_propagate. rewrite path_gain_loss by assumption. cbn [bind]. eexists. split; [reflexivity|]. assert (A : 0 < Rabs (l_carrier k)) by (apply Rabs_pos_lt; exact Hc). assert (Hpi := PI_RGT_0).
  assert (L : 0 < light) by (unfold light; lra).
  rewrite plain_energy; [|exact Hp|exact Hs|].
  - rewrite <- E. field. repeat split; lra.
  - apply Rmult_lt_0_compat; [exact Hg|]. apply Rdiv_lt_0_compat; [apply Rdiv_lt_0_compat; assumption|]. apply Rmult_lt_0_compat; [lra|]. apply Rmult_lt_0_compat; assumption.
Qed.
Print Assumptions C123_inverse_square.
Example C123_inverse_square_met : plain (some_link (V 0 0 0) (V 3 4 0)) /\ l_carrier (some_link (V 0 0 0) (V 3 4 0)) <> 0 /\ V 0 0 0 <> V 3 4 0.
Proof. split; [apply some_link_plain|]. split; [cbn; lra|]. intros H. injection H. lra. Qed.

(** The gain is documented as a factor of power, but is one of amplitude: energies are multiplied by its square, so only one and zero do what they should *)
Theorem C123_gain_refuted : forall gain delay k s, plain k -> streams s = 1%nat -> 0 < gain -> 0 < energy s 0 ->
  exists y, sample_propagate false gain delay k s = Ok y /\ energy y 0 = gain ^ 2 * energy s 0 /\ (energy y 0 = gain * energy s 0 <-> gain = 1).
Proof.
  intros gain delay k s Hp Hs Hg He. eexists. split; [reflexivity|]. rewrite plain_energy by assumption. split; [reflexivity|]. split; intros H; [|subst; ring].
  assert (Q : gain ^ 2 = gain) by (apply (Rmult_eq_reg_r (energy s 0)); [exact H|lra]). nra.
Qed.
Print Assumptions C123_gain_refuted.
Example C123_gain_refuted_met : 0 < energy (Blk 1 2 0 (fun _ _ => RtoC 1)) 0.
Proof. unfold energy, sq, rsum. cbn. lra. Qed.

(** Close to each other devices receive more than was sent, without any bound; at the same place exactly as much *)
Theorem C123_close_refuted : forall carrier bound, carrier <> 0 -> 0 < bound -> exists delay g, 0 < delay /\ path_gain true 1 carrier delay = Ok g /\ bound < g /\ path_gain true 1 carrier 0 = Ok 1.
Proof.
  intros carrier bound Hc Hb. assert (A : 0 < Rabs carrier) by (apply Rabs_pos_lt; exact Hc). assert (Hpi := PI_RGT_0).
  set (d := 1 / (4 * PI * Rabs carrier * (bound + 1))). assert (D : 0 < 4 * PI * Rabs carrier * (bound + 1)) by (apply Rmult_lt_0_compat; [apply Rmult_lt_0_compat; lra|lra]).
  exists d, (bound + 1). assert (Pd : 0 < d) by (unfold d; apply Rdiv_lt_0_compat; lra). split; [exact Pd|]. split; [|split; [lra|apply C123_path_gain; [exact 1|exact Hc]]].
  rewrite path_gain_loss by assumption. f_equal. unfold d, light. field. repeat split; lra.
Qed.
Print Assumptions C123_close_refuted.
Example C123_close_refuted_met : 1000000000 <> 0 /\ 0 < 100.
Proof. split; lra. Qed.

(** Random delays: not negative floating point numbers, or pairs of such in order; whole numbers are refused *)
Theorem C123_setting : forall v, (exists c, set_delay v = Ok c) <-> (exists d, v = Float d /\ 0 <= d) \/ exists a b, v = Tuple [a; b] /\ 0 <= a <= b.
Proof.
  intros v. split.
  - intros [c E]. destruct v as [d|l|]; cbn [set_delay] in E; [|destruct l as [|a [|b [|? ?]]]; try discriminate|discriminate].
    + destruct (Rlt_dec d 0); [discriminate|]. left. exists d. split; [reflexivity|lra].
    + destruct (Rlt_dec a 0), (Rlt_dec b 0), (Rlt_dec b a); try discriminate. right. exists a, b. split; [reflexivity|lra].
  - intros [[d [-> H]]|[a [b [-> H]]]]; cbn [set_delay].
    + destruct (Rlt_dec d 0); [lra|]. eexists. reflexivity.
    + destruct (Rlt_dec a 0); [lra|]. destruct (Rlt_dec b 0); [lra|]. destruct (Rlt_dec b a); [lra|]. eexists. reflexivity.
Qed.
Print Assumptions C123_setting.
Example C123_setting_met : set_delay Other = Raise ValueError /\ exists c, set_delay (Tuple [1; 2]) = Ok c.
Proof. split; [reflexivity|]. apply C123_setting. right. exists 1, 2. split; [reflexivity|lra]. Qed.

(** Whatever was drawn, delays are in the range set, equal for links between the same places, and all equal unless a decorrelation distance is set *)
Theorem C123_random_delay : forall cdf v c d n normals waves r, distribution cdf -> set_delay v = Ok c -> realize_delay d n normals waves = Ok r ->
  forall k, exists t, random_delay cdf c r k = Ok t /\ 0 <= t /\ (forall x, v = Float x -> t = x) /\ (forall a b, v = Tuple [a; b] -> a <= t <= b) /\
  forall k', (d = Infinite \/ l_tx k = l_tx k' /\ l_rx k = l_rx k') -> random_delay cdf c r k' = Ok t.
Proof.
  intros cdf v c d n normals waves r [B _] Ec Er k. assert (Hv : exists c, set_delay v = Ok c) by (exists c; exact Ec). apply C123_setting in Hv as [[x [-> Hx]]|[a [b [-> Hab]]]]; cbn [set_delay] in Ec.
  - destruct (Rlt_dec x 0); [lra|]. injection Ec as <-. exists x. split; [reflexivity|]. split; [exact Hx|]. split; [intros y Hy; congruence|]. split; [intros; discriminate|reflexivity].
  - destruct (Rlt_dec a 0); [lra|]. destruct (Rlt_dec b 0); [lra|]. destruct (Rlt_dec b a); [lra|]. injection Ec as <-.
    destruct (random_delay_between cdf a b d n normals waves r k Er) as [u [Eu Et]]. eexists. split; [exact Et|]. assert (Bu := B u).
    assert (L : a <= a + (b - a) * cdf u <= b) by (split; nra). split; [lra|]. split; [intros; discriminate|]. split; [intros a' b' H; injection H as <- <-; exact L|].
    intros k' Hk. destruct (random_delay_between cdf a b d n normals waves r k' Er) as [u' [Eu' Et']]. rewrite Et'. assert (Q : u' = u); [|rewrite Q; reflexivity].
    destruct Hk as [->|[H1 H2]].
    + unfold realize_delay, realize in Er. injection Er as <-. cbn [sample] in *. congruence.
    + rewrite <- H1, <- H2, Eu in Eu'. congruence.
Qed.
Print Assumptions C123_random_delay.
Example C123_random_delay_met : distribution (fun x => atan x / PI + 1 / 2) /\ exists r, realize_delay Infinite 30 (fun _ => 0) (fun _ _ => (Wave 0 0 0, Wave 0 0 0, 0)) = Ok r.
Proof.
  split; [|eexists; reflexivity]. assert (P := PI_RGT_0). split.
  - intros x. assert (B := atan_bound x). assert (L : - (1 / 2) < atan x / PI < 1 / 2); [|lra]. split; apply (Rmult_lt_reg_r PI); try assumption; unfold Rdiv; rewrite Rmult_assoc, Rinv_l by lra; lra.
  - intros x y H. apply Rplus_lt_compat_r. apply Rmult_lt_compat_r; [apply Rinv_0_lt_compat; exact P|apply atan_increasing; exact H].
Qed.

(** The delays of both directions of a link, sampled on their own, differ in general; only the reciprocal sample keeps the delay (by construction) *)
Theorem C123_reciprocity_refuted : forall cdf low high, distribution cdf -> low < high -> exists n waves normals r k, realize_delay (Distance 1) n normals waves = Ok r /\
  random_delay cdf (Between low high) r (turn k (rx_response k) (tx_response k)) <> random_delay cdf (Between low high) r k.
Proof.
  intros cdf low high [_ M] H. exists 1%nat, (fun _ _ => (Wave 1 0 0, Wave 0 0 0, 0)), (fun _ => 0).
  exists (Dual 1 [[Sin (frequency (Wave 1 0 0)) (frequency (Wave 0 0 0)) 0]]), (some_link (V 0 0 0) (V 0 0 (1 / 2))). split.
  - unfold realize_delay, realize. destruct (Req_EM_T 1 0); [lra|]. reflexivity.
  - unfold random_delay. cbn [turn some_link l_tx l_rx sample map].
    assert (F1 : frequency (Wave 1 0 0) = V 0 0 (2 * PI)).
    { unfold frequency, vscale. cbn [radial azimuth inclination vx vy vz]. replace (1 - 0) with 1 by ring. rewrite acos_1, sin_0, cos_0. f_equal; ring. }
    assert (F2 : frequency (Wave 0 0 0) = V 0 0 0) by (unfold frequency, vscale; cbn [radial azimuth inclination vx vy vz]; f_equal; ring).
    rewrite F1, F2. unfold sample_scalar. cbn [fold_right f_a f_b Cons_Model.phase]. unfold dot. cbn [vx vy vz].
    match goal with |- context [cos ?a + 0] => replace (cos a) with (-1) by (rewrite <- cos_PI; f_equal; field) end.
    match goal with |- context [cos ?a + 0] => replace (cos a) with 1 by (rewrite <- cos_0; f_equal; field) end.
    cbn [uniform fetch size delay_world]. unfold uniform, fetch. change (size delay_world 0) with 1%nat. change (Cons_Model.offset delay_world 0) with 0%nat. cbn [firstn skipn length Nat.eqb bind map].
    intros E. injection E as E. assert (Q : cdf (sqrt (2 / 1) * (-1 + 0)) < cdf (sqrt (2 / 1) * (1 + 0))).
    { apply M. assert (0 < sqrt (2 / 1)) by (apply sqrt_lt_R0; cbn [INR]; lra). lra. }
    assert (P : 0 < high - low) by lra. assert (T := Rmult_lt_compat_l _ _ _ P Q). lra.
Qed.
Print Assumptions C123_reciprocity_refuted.
Example C123_reciprocity_refuted_met : distribution (fun x => atan x / PI + 1 / 2) /\ 0 < 1.
Proof. split; [apply C123_random_delay_met|lra]. Qed.

(** The loss follows the delay drawn and not the distance: links of any distances receive the same energy *)
Theorem C123_random_loss_refuted : forall gain delay k k' s, plain k -> plain k' -> streams s = 1%nat -> 0 < gain -> 0 < delay -> l_carrier k = l_carrier k' -> l_carrier k <> 0 ->
  exists y y', sample_propagate true gain delay k s = Ok y /\ sample_propagate true gain delay k' s = Ok y' /\ energy y 0 = energy y' 0.
Proof.
  intros gain delay k k' s Hp Hp' Hs Hg Hd Ec Hc. unfold sample_propagate. rewrite <- Ec. rewrite !path_gain_loss by assumption. cbn [bind]. eexists. eexists. split; [reflexivity|]. split; [reflexivity|].
  assert (A : 0 < Rabs (l_carrier k)) by (apply Rabs_pos_lt; exact Hc). assert (Hpi := PI_RGT_0). assert (L : 0 < light) by (unfold light; lra).
  assert (G : 0 < gain * (light / Rabs (l_carrier k) / (4 * PI * (light * delay)))).
  { apply Rmult_lt_0_compat; [exact Hg|]. apply Rdiv_lt_0_compat; [apply Rdiv_lt_0_compat; assumption|]. apply Rmult_lt_0_compat; [lra|]. apply Rmult_lt_0_compat; assumption. }
  rewrite !plain_energy by assumption. reflexivity.
Qed.
Print Assumptions C123_random_loss_refuted.
Example C123_random_loss_refuted_met : plain (some_link (V 0 0 0) (V 0 0 0)) /\ plain (some_link (V 0 0 0) (V 1000 0 0)).
Proof. split; apply some_link_plain. Qed.

(** A decorrelation distance of zero is accepted, but then there is no realization *)
Theorem C123_decorrelation_refuted : set_decorrelation (Distance 0) = Ok (Distance 0) /\ forall n normals waves, realize_delay (Distance 0) n normals waves = Raise ZeroDivisionError.
Proof.
  split; [unfold set_decorrelation; destruct (Rlt_dec 0 0); [lra|reflexivity]|]. intros. unfold realize_delay, realize. destruct (Req_EM_T 0 0); [reflexivity|contradiction].
Qed.
Print Assumptions C123_decorrelation_refuted.
