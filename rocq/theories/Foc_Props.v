(** * C135: beams towards devices *)
From Coq Require Import List Reals Lra Lia.
From Coquelicot Require Import Complex.
From Verif Require Import Base BaseLemmas Cplx Cplx_Proofs Rot_Model Rot_Spec Rot_Proofs Ant_Model Ant_Spec Ant_Proofs Beam_Model Beam_Spec Beam_Proofs Beam_Props Foc_Model Foc_Spec Foc_Proofs.
Import ListNotations.
Open Scope R_scope.

(** The angles of a focused device are those of its direction at the time of the state, along the axes of the scene; devices at the same position cannot be focused *)
Theorem C135_angles : forall own track t,
  (device_angles own track t = Raise ValueError <-> track t = own) /\
  (forall a z, device_angles own track t = Ok (a, z) -> heads own (track t) (V (cos a * sin z) (sin a * sin z) (cos z))) /\
  (forall d, heads own (track t) d -> device_angles own track t = Ok (to_spherical d)).
Proof.
  intros own track t. split; [|split; [|intros d; apply heads_angles]].
  - unfold device_angles, normalized. destruct (Req_EM_T (norm (vsub (track t) own)) 0) as [E|N]; cbn; split; intro H; try reflexivity; try discriminate.
    + apply vsub_zero. apply norm_zero. exact E.
    + exfalso. apply N. apply norm_zero. apply vsub_zero. exact H.
  - intros a z H. unfold device_angles, normalized in H. destruct (Req_EM_T (norm (vsub (track t) own)) 0) as [E|N]; [discriminate|]. cbn [bind] in H.
    set (u := vsub (track t) own) in *.
    assert (P : 0 < norm u) by (destruct (Rle_lt_or_eq_dec 0 (norm u) (sqrt_pos _)); [assumption|congruence]).
    assert (Nu : norm (vscale (/ norm u) u) = 1) by (rewrite norm_scaled by (left; apply Rinv_0_lt_compat; exact P); field; lra).
    assert (H' : to_spherical (vscale (/ norm u) u) = (a, z)) by congruence. pose proof (spherical_v _ Nu) as K. rewrite H' in K. cbn [fst snd] in K. rewrite K.
    split; [exact Nu|]. exists (norm u). split; [exact P|]. fold u. destruct u as [x y w]. unfold vscale. cbn [vx vy vz]. f_equal; field; lra.
Qed.
Print Assumptions C135_angles.

(** Conventional beamformers receive the focused device undistorted, however the array is turned; v is the direction in the array's frame *)
Theorem C135_receives_the_device : forall arr fs fc own track t d v s, rigid (base arr) -> heads own (track t) d -> d = mv (rotation (base arr)) v ->
  (0 < length (select RX (antennas arr)))%nat ->
  towards own track t (fun f => beam_receive arr fc f (mkSignal [arriving (wavefront arr fc v RX) s] fs fc)) = Ok (mkSignal [[s]] fs fc).
Proof.
  intros arr fs fc own track t d v s Hb Hd Hv H0. unfold towards. rewrite (heads_angles own track t d Hd). cbn [bind]. unfold beam_receive. cbn [blocks rate carrier].
  rewrite C67_conventional_receives_scene_angles; [reflexivity|exact Hb| |exact H0]. rewrite <- Hv. symmetry. apply spherical_v. exact (proj1 Hd).
Qed.
Print Assumptions C135_receives_the_device.

(** Their antennas' signals add up coherently towards the focused device and nowhere to more; signals are sent at the rate of the device *)
Theorem C135_transmits_to_the_device : forall arr fs fc own track t d v s r c, rigid (base arr) -> heads own (track t) d -> d = mv (rotation (base arr)) v ->
  exists x, towards own track t (fun f => beam_transmit arr fs fc f (mkSignal [[s]] r c)) = Ok (mkSignal [x] fs c) /\ length x = length (select TX (antennas arr)) /\
  (forall k, (k < length s)%nat -> radiated (wavefront arr fc v TX) x k = (RtoC (INR (length (select TX (antennas arr)))) * at0 s k)%C) /\
  (forall u k, (k < length s)%nat -> Cmod (radiated (wavefront arr fc u TX) x k) <= Cmod (radiated (wavefront arr fc v TX) x k)).
Proof.
  intros arr fs fc own track t d v s r c Hb Hd Hv. unfold towards. rewrite (heads_angles own track t d Hd). cbn [bind].
  exists (arriving (steering arr fc (to_spherical d) TX) s). split.
  { unfold beam_transmit, num_streams. cbn [blocks length carrier]. destruct (to_spherical d) as [a z]. reflexivity. }
  split; [rewrite length_arriving; apply length_steering|].
  assert (K : forall u k, (k < length s)%nat -> radiated (wavefront arr fc u TX) (arriving (steering arr fc (to_spherical d) TX) s) k =
    (csum (fun n => at0 (steering arr fc (to_spherical d) TX) n * at0 (wavefront arr fc u TX) n) (length (select TX (antennas arr))) * at0 s k)%C).
  { intros u k Hk. unfold radiated. rewrite length_wavefront, <- csum_scal_r. apply csum_ext. intros n Hn.
    rewrite at2_arriving by (rewrite ?length_steering; assumption). ring. }
  assert (E : forall k, (k < length s)%nat -> radiated (wavefront arr fc v TX) (arriving (steering arr fc (to_spherical d) TX) s) k =
    (RtoC (INR (length (select TX (antennas arr)))) * at0 s k)%C).
  { intros k Hk. rewrite K by exact Hk. rewrite matched; [reflexivity|exact Hb|]. rewrite <- Hv. apply spherical_of. exact (proj1 Hd). }
  split; [exact E|]. intros u k Hk. rewrite E, K by exact Hk. rewrite !Cmod_mult. apply Rmult_le_compat_r; [apply Cmod_ge_0|].
  rewrite Cmod_R, Rabs_right by (apply Rle_ge, pos_INR). apply mismatched. exact Hb.
Qed.
Print Assumptions C135_transmits_to_the_device.

(** Focusing the device and focusing its direction along the axes of the scene are not the same: the latter may receive nothing *)
Theorem C135_equivalent_focus_refuted : exists arr fc own track d v, rigid (base arr) /\ heads own (track 0) d /\ d = mv (rotation (base arr)) v /\
  let s := mkSignal [arriving (wavefront arr fc v RX) [RtoC 1]] 1 fc in
  towards own track 0 (fun f => beam_receive arr fc f s) = Ok (mkSignal [[[RtoC 1]]] 1 fc) /\
  beam_receive arr fc [Coordinate d Global] s = Ok (mkSignal [[[RtoC 0]]] 1 fc).
Proof.
  destruct C67_conventional_receives_the_focus_refuted as (arr & fc & d & v & Hb & Hu & Hv & H0 & E).
  assert (Hd : heads zero ((fun _ : R => d) 0) d).
  { split; [exact Hu|]. exists 1. split; [lra|]. destruct d as [x y z]. unfold vsub, vscale, zero. cbn. f_equal; ring. }
  exists arr, fc, zero, (fun _ => d), d, v. split; [exact Hb|]. split; [exact Hd|]. split; [exact Hv|]. cbv zeta. split.
  - apply (C135_receives_the_device arr 1 fc zero (fun _ => d) 0 d v [RtoC 1] Hb Hd Hv H0).
  - unfold beam_receive. cbn [blocks rate carrier]. rewrite E. reflexivity.
Qed.
Print Assumptions C135_equivalent_focus_refuted.

(** Capon beamformers take the angles for those in the array's frame: undistorted is what arrives from the direction of the device turned like the array *)
Theorem C135_capon_turned : forall inv loading arr fs fc own track t d s e x y, inverts inv -> rigid (base arr) -> heads own (track t) d -> 0 <= loading ->
  (0 < length x)%nat -> width x = length s ->
  (forall n k, (n < length x)%nat -> (k < length s)%nat -> at2 x n k = (at2 (arriving (wavefront arr fc d RX) s) n k + at2 e n k)%C) ->
  towards own track t (fun f => capon_beam_receive inv loading arr fc f (mkSignal [x] fs fc)) = Ok y ->
  exists w r, y = mkSignal [[r]] fs fc /\ length r = length s /\ forall k, (k < length s)%nat -> at0 r k = (at0 s k + csum (fun n => conj (w n) * at2 e n k) (length x))%C.
Proof.
  intros inv loading arr fs fc own track t d s e x y Hi Hb Hd Hl H0 Hw Hx H. unfold towards in H. rewrite (heads_angles own track t d Hd) in H. cbn [bind] in H.
  unfold capon_beam_receive in H. cbn [blocks rate carrier] in H. destruct (capon_receive inv loading arr fc _ [x]) as [z|] eqn:E; [|discriminate]. cbn in H. injection H as <-.
  assert (Z : exists b, z = [b]).
  { unfold capon_receive, decode_streams in E. cbn [length Nat.eqb negb mapM] in E. match type of E with bind ?q _ = _ => destruct q as [b|] end; [|discriminate]. cbn in E. injection E as <-. eauto. }
  destruct Z as [b ->].
  destruct (C68_capon_is_distortionless inv loading arr fc (Spherical (fst (to_spherical d)) (snd (to_spherical d))) d s e x b Hi Hb) as (w & r & Er & Lr & K);
    [cbn [aimed]; symmetry; apply spherical_v; exact (proj1 Hd)|exact Hl|exact H0|exact Hw|exact Hx|exact E|].
  exists w, r. subst b. auto.
Qed.
Print Assumptions C135_capon_turned.

(** Only single streams are transmitted *)
Theorem C135_streams : forall arr fs fc own track t s, num_streams s <> 1%nat ->
  towards own track t (fun f => beam_transmit arr fs fc f s) = Raise ValueError.
Proof.
  intros arr fs fc own track t s H. unfold towards. destruct (device_angles own track t) as [a|e] eqn:E; cbn [bind].
  - unfold beam_transmit. rewrite (proj2 (C67_wrong_requests_are_refused arr fc [Spherical (fst a) (snd a)] (num_streams s) (blocks s)) H). reflexivity.
  - unfold device_angles, normalized in E. destruct (Req_EM_T _ _); cbn in E; [injection E as <-; reflexivity|discriminate].
Qed.
Print Assumptions C135_streams.

(** A device three metres ahead of a turned array with two antennas *)
Example C135_met : let arr := mkArray (mkT (M 0 0 1 1 0 0 0 1 0) zero) (elements [0; 1]) in
  rigid (base arr) /\ heads (V 0 0 0) (V 3 0 0) (V 1 0 0) /\ V 1 0 0 = mv (rotation (base arr)) (V 0 0 1) /\ (0 < length (select RX (antennas arr)))%nat /\
  V 1 0 0 <> mv (rotation (base arr)) (V 1 0 0) /\ num_streams (mkSignal [[[RtoC 1]; [RtoC 2]]] 1 1) <> 1%nat.
Proof.
  cbv zeta. cbn [base rotation]. split; [unfold rigid; cbn [base rotation]; split; [apply mat_eq|]; unfold eye; comps; ring|]. split.
  - split; [apply norm_one; comps; ring|]. exists 3. split; [lra|]. unfold vsub, vscale. cbn. f_equal; ring.
  - split; [apply vec_eq; comps; ring|]. split; [cbn; lia|]. split; [|cbn; lia]. intro H. apply (f_equal vx) in H. unfold mv, dot in H. cbn in H. lra.
Qed.
