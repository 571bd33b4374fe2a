(** Properties of beamformers (C67, C68, C69). *)
From Coq Require Import List Reals Lra Lia.
From Coquelicot Require Import Complex.
From Verif Require Import Base BaseLemmas Cplx Cplx_Proofs Rot_Model Rot_Spec Rot_Proofs Ant_Model Ant_Spec Ant_Proofs Beam_Model Beam_Spec Beam_Proofs.
Import ListNotations.
Open Scope R_scope.

Lemma rigid_unturned : forall arr, rotation (base arr) = eye -> rigid (base arr).
Proof. intros arr H. unfold rigid. rewrite H. split; [apply mat_eq|]; unfold eye; comps; ring. Qed.

(** ** C67: the conventional beamformer *)
(** What it makes of a plane wave from direction u when it is focused on a direction given along the scene's axes *)
Lemma conventional_receive_arriving : forall arr carrier f u s, rigid (base arr) -> (0 < length (select RX (antennas arr)))%nat ->
  conventional_receive arr carrier [f] [arriving (wavefront arr carrier u RX) s] =
  Ok [[map (fun x => (csum (fun n => at0 (steering arr carrier (spherical_angles arr f) RX) n * at0 (wavefront arr carrier u RX) n)
                       (length (select RX (antennas arr))) / RtoC (INR (length (select RX (antennas arr)))) * x)%C) s]].
Proof.
  intros arr carrier f u s Hb H0. unfold conventional_receive, decode_streams. cbn [length Nat.eqb negb map mapM angle nth]. unfold conventional_decode. cbn [mapM].
  unfold angle. cbn [nth]. rewrite length_steering.
  rewrite weigh_arriving by (rewrite ?map_length, ?length_steering, ?length_wavefront; lia). cbn [bind first nth].
  rewrite length_wavefront, scaled_sum; [reflexivity|apply length_steering|]. apply not_0_INR. lia.
Qed.
Theorem C67_conventional_receives_the_focus : forall arr carrier f v s, rotation (base arr) = eye -> aimed arr f v ->
  (0 < length (select RX (antennas arr)))%nat ->
  conventional_receive arr carrier [f] [arriving (wavefront arr carrier v RX) s] = Ok [[s]].
Proof.
  intros arr carrier f v s He Hf H0. pose proof (rigid_unturned arr He) as Hb. rewrite conventional_receive_arriving by assumption.
  rewrite matched by (try exact Hb; rewrite (aimed_angles arr f v Hb Hf), He, mv_eye; reflexivity).
  assert (Hn : RtoC (INR (length (select RX (antennas arr)))) <> RtoC 0) by (apply RtoC_neq, not_0_INR; lia).
  do 3 f_equal. apply map_id_in. intros x. field. exact Hn.
Qed.
Print Assumptions C67_conventional_receives_the_focus.
(** Turned arrays receive the focus if it is given along the scene's axes instead of the array's *)
Theorem C67_conventional_receives_scene_angles : forall arr carrier az z v s, rigid (base arr) ->
  mv (rotation (base arr)) v = V (cos az * sin z) (sin az * sin z) (cos z) -> (0 < length (select RX (antennas arr)))%nat ->
  conventional_receive arr carrier [Spherical az z] [arriving (wavefront arr carrier v RX) s] = Ok [[s]].
Proof.
  intros arr carrier az z v s Hb Hv H0. rewrite conventional_receive_arriving by assumption.
  rewrite matched by (try exact Hb; cbn [spherical_angles fst snd]; rewrite Hv; apply vec_eq; unfold From_Spherical; cbn; ring).
  assert (Hn : RtoC (INR (length (select RX (antennas arr)))) <> RtoC 0) by (apply RtoC_neq, not_0_INR; lia).
  do 3 f_equal. apply map_id_in. intros x. field. exact Hn.
Qed.
Print Assumptions C67_conventional_receives_scene_angles.
Theorem C67_conventional_amplifies_no_direction : forall arr carrier f u s, rigid (base arr) -> (0 < length (select RX (antennas arr)))%nat ->
  exists r, conventional_receive arr carrier [f] [arriving (wavefront arr carrier u RX) s] = Ok [[r]] /\ length r = length s /\
  forall t, Cmod (at0 r t) <= Cmod (at0 s t).
Proof.
  intros arr carrier f u s Hb H0. rewrite conventional_receive_arriving by assumption. eexists. split; [reflexivity|]. split; [apply map_length|].
  intros t. destruct (Nat.lt_ge_cases t (length s)) as [Ht|Ht].
  - unfold at0 at 1. rewrite (nth_map' _ s t (RtoC 0) (RtoC 0)) by exact Ht. fold (at0 s t).
    rewrite Cmod_mult. rewrite <- (Rmult_1_l (Cmod (at0 s t))) at 2. apply Rmult_le_compat_r; [apply Cmod_ge_0|].
    assert (Hn : 0 < INR (length (select RX (antennas arr)))) by (apply lt_0_INR; lia).
    rewrite Cmod_div by (apply RtoC_neq; lra). rewrite Cmod_R, Rabs_right by lra.
    pose proof (mismatched arr carrier (spherical_angles arr f) u RX Hb) as M. apply (Rmult_le_reg_r (INR (length (select RX (antennas arr))))); [exact Hn|].
    unfold Rdiv. rewrite Rmult_assoc, Rinv_l by lra. lra.
  - unfold at0. rewrite !nth_overflow by (rewrite ?map_length; exact Ht). lra.
Qed.
Print Assumptions C67_conventional_amplifies_no_direction.
(** Transmission: the antennas' signals add up coherently towards the focus and nowhere to more *)
Theorem C67_conventional_transmits_towards_the_focus : forall arr carrier f v s, rotation (base arr) = eye -> aimed arr f v ->
  exists x, conventional_transmit arr carrier [f] 1 [[s]] = Ok [x] /\ length x = length (select TX (antennas arr)) /\
  (forall t, (t < length s)%nat -> radiated (wavefront arr carrier v TX) x t = (RtoC (INR (length (select TX (antennas arr)))) * at0 s t)%C) /\
  (forall u t, (t < length s)%nat -> Cmod (radiated (wavefront arr carrier u TX) x t) <= Cmod (radiated (wavefront arr carrier v TX) x t)).
Proof.
  intros arr carrier f v s He Hf. pose proof (rigid_unturned arr He) as Hb.
  exists (arriving (steering arr carrier (spherical_angles arr f) TX) s). split; [reflexivity|].
  split; [rewrite length_arriving; apply length_steering|].
  assert (K : forall u t, (t < length s)%nat -> radiated (wavefront arr carrier u TX) (arriving (steering arr carrier (spherical_angles arr f) TX) s) t =
    (csum (fun n => at0 (steering arr carrier (spherical_angles arr f) TX) n * at0 (wavefront arr carrier u TX) n) (length (select TX (antennas arr))) * at0 s t)%C).
  { intros u t Ht. unfold radiated. rewrite length_wavefront, <- csum_scal_r. apply csum_ext. intros n Hn.
    rewrite at2_arriving by (rewrite ?length_steering; assumption). ring. }
  assert (E : forall t, (t < length s)%nat -> radiated (wavefront arr carrier v TX) (arriving (steering arr carrier (spherical_angles arr f) TX) s) t =
    (RtoC (INR (length (select TX (antennas arr)))) * at0 s t)%C).
  { intros t Ht. rewrite K by exact Ht. rewrite matched; [reflexivity|exact Hb|]. rewrite (aimed_angles arr f v Hb Hf), He, mv_eye. reflexivity. }
  split; [exact E|]. intros u t Ht. rewrite E, K by exact Ht. rewrite !Cmod_mult. apply Rmult_le_compat_r; [apply Cmod_ge_0|].
  rewrite Cmod_R, Rabs_right by (apply Rle_ge, pos_INR). apply mismatched. exact Hb.
Qed.
Print Assumptions C67_conventional_transmits_towards_the_focus.

(** Half a wavelength per metre *)
Definition carrier2 : R := speed_of_light / 2.
Lemma phase2 : forall x, 2 * PI * carrier2 * x / speed_of_light = PI * x.
Proof. intros. unfold carrier2. field. unfold speed_of_light. lra. Qed.
Definition elements (l : list R) : list antenna := map (fun z => A DUPLEX Ideal (mkT eye (V 0 0 z))) l.
Example C67_conventional_met : let arr := mkArray (mkT eye (V 4 5 6)) (elements [0; 1; 2]) in
  rotation (base arr) = eye /\ aimed arr (Coordinate (V 1 0 0) Global) (V 1 0 0) /\ length (select RX (antennas arr)) = 3%nat /\
  length (select TX (antennas arr)) = 3%nat /\ wavefront arr carrier2 (V 0 0 1) RX <> wavefront arr carrier2 (V 1 0 0) RX.
Proof.
  cbv zeta. cbn [base rotation antennas]. split; [reflexivity|]. split; [split; [apply norm_one; comps; ring|cbn [base rotation]; rewrite mv_eye; reflexivity]|]. split; [reflexivity|]. split; [reflexivity|].
  unfold wavefront. cbn [antennas elements map select filter amode mode_eqb negb apose translation]. rewrite !phase2. intros H.
  assert (H1 : cis (PI * dot (V 0 0 1) (V 0 0 1)) = cis (PI * dot (V 1 0 0) (V 0 0 1))) by congruence. comps. apply (f_equal fst) in H1. unfold cis in H1. cbn [fst] in H1.
  replace (PI * (0 * 0 + 0 * 0 + 1 * 1)) with PI in H1 by ring. replace (PI * (1 * 0 + 0 * 0 + 0 * 1)) with 0 in H1 by ring. rewrite cos_PI, cos_0 in H1. lra.
Qed.
(** A turned array focused on a direction of the scene may receive nothing from there *)
Theorem C67_conventional_receives_the_focus_refuted : exists arr carrier d v, rigid (base arr) /\ unit_vector d /\ d = mv (rotation (base arr)) v /\
  (0 < length (select RX (antennas arr)))%nat /\
  conventional_receive arr carrier [Coordinate d Global] [arriving (wavefront arr carrier v RX) [RtoC 1]] = Ok [[[RtoC 0]]].
Proof.
  set (R0 := M 0 0 1 1 0 0 0 1 0). set (arr := mkArray (mkT R0 zero) (elements [0; 1])).
  assert (Hb : proper R0) by (split; [apply mat_eq|]; unfold R0; comps; ring).
  exists arr, carrier2, (V 1 0 0), (V 0 0 1). split; [exact Hb|]. split; [apply norm_one; comps; ring|].
  assert (Ed : V 1 0 0 = mv R0 (V 0 0 1)) by (apply vec_eq; unfold R0; comps; ring). split; [exact Ed|].
  split; [cbn; lia|]. rewrite conventional_receive_arriving by (try exact Hb; cbn; lia). do 4 f_equal.
  change (length (select RX (antennas arr))) with 2%nat. cbn [csum].
  assert (Ha : From_Spherical (fst (spherical_angles arr (Coordinate (V 1 0 0) Global))) (snd (spherical_angles arr (Coordinate (V 1 0 0) Global))) = V 0 0 1).
  { apply aimed_angles; [exact Hb|]. split; [apply norm_one; comps; ring|exact Ed]. }
  rewrite !steering_at, !wavefront_at by (try exact Hb; cbn; lia). rewrite Ha. cbn [select antennas arr elements map filter amode mode_eqb negb nth apose translation base rotation].
  rewrite !phase2. unfold R0. comps.
  replace (cis (- (PI * ((0 * 0 + 1 * 0 + 0 * 1) * 0 + (0 * 0 + 0 * 0 + 1 * 1) * 0 + (1 * 0 + 0 * 0 + 0 * 1) * 0)))) with (cis 0) by (f_equal; ring).
  replace (cis (PI * (0 * 0 + 0 * 0 + 1 * 0))) with (cis 0) by (f_equal; ring).
  replace (cis (- (PI * ((0 * 0 + 1 * 0 + 0 * 1) * 0 + (0 * 0 + 0 * 0 + 1 * 1) * 0 + (1 * 0 + 0 * 0 + 0 * 1) * 1)))) with (cis 0) by (f_equal; ring).
  replace (cis (PI * (0 * 0 + 0 * 0 + 1 * 1))) with (cis PI) by (f_equal; ring).
  replace (cis PI) with (- RtoC 1)%C by (unfold cis; rewrite cos_PI, sin_PI; unfold RtoC, Copp; cbn; f_equal; lra). rewrite cis_0.
  assert (Hn : RtoC (INR 2) <> RtoC 0) by (apply RtoC_neq; cbn; lra). cbn [map]. f_equal. field. exact Hn.
Qed.
Print Assumptions C67_conventional_receives_the_focus_refuted.

(** ** C68: the capon beamformer *)
Theorem C68_capon_minimises_power : forall inv loading arr carrier f v x y, inverts inv -> rigid (base arr) -> aimed arr f v -> 0 <= loading ->
  (0 < length x)%nat -> capon_receive inv loading arr carrier [f] [x] = Ok [y] ->
  let a := wavefront arr carrier v RX in
  exists w, length a = length x /\ y = [tab (width x) (combined w x)] /\
  csum (fun n => conj (w n) * at0 a n)%C (length x) = RtoC 1 /\
  forall u, csum (fun n => conj (u n) * at0 a n)%C (length x) = RtoC 1 ->
    energy (combined w x) (width x) + loading * energy w (length x) <= energy (combined u x) (width x) + loading * energy u (length x).
Proof.
  intros inv loading arr carrier f v x y Hinv Hb Hf Hl H0 H. cbv zeta.
  unfold capon_receive, decode_streams in H. cbn [length Nat.eqb negb map mapM angle nth] in H. unfold angle in H. cbn [nth] in H. unfold capon_decode in H. cbn [mapM] in H.
  rewrite (response_wavefront _ _ _ _ _ Hb), (aimed_angles arr f v Hb Hf) in H. set (a := wavefront arr carrier v RX) in *.
  destruct (inv (length x) (covariance x loading)) as [p|e] eqn:Ei; [|discriminate]. cbn [bind] in H.
  destruct (Nat.eqb (length a) (length x)) eqn:En; [|discriminate]. apply Nat.eqb_eq in En.
  pose proof (Hinv _ _ _ Ei) as Hp. unfold weigh in H. unfold capon_weights in H at 1. rewrite map_length, length_tab, Nat.eqb_refl in H. cbn [bind first nth] in H. injection H as <-.
  set (W := capon_weights (length x) p a). exists (at0 W). split; [exact En|].
  assert (Lw : length W = length x) by apply length_tab.
  assert (Hne : exists i, (i < length x)%nat /\ at0 a i <> RtoC 0).
  { exists 0%nat. split; [exact H0|]. intros E. assert (M : Cmod (at0 a 0) = 1).
    { unfold a. rewrite wavefront_at by (rewrite <- (length_wavefront arr carrier v RX); fold a; lia). apply cis_modulus. }
    rewrite E, Cmod_0 in M. lra. }
  destruct (capon_optimal x loading p (at0 a) Hl Hp Hne) as [O1 O2].
  assert (Ew : forall i, (i < length x)%nat -> at0 W i = (solution x p (at0 a) i / RtoC (cost x loading (solution x p (at0 a))))%C) by (apply capon_weights_at; assumption).
  assert (Ec : forall t, combined (at0 W) x t = combined (fun i => solution x p (at0 a) i / RtoC (cost x loading (solution x p (at0 a))))%C x t).
  { intros t. unfold combined. apply csum_ext. intros n Hn. rewrite Ew by exact Hn. reflexivity. }
  split; [|split].
  - unfold first. cbn [nth]. f_equal. fold W. rewrite map_length, Lw. apply tab_ext. intros t _. unfold combined. apply csum_ext. intros n Hn. f_equal.
    unfold at0. rewrite (nth_map' conj W n (RtoC 0) (RtoC 0)) by lia. reflexivity.
  - rewrite <- O1. unfold inner. apply csum_ext. intros n Hn. rewrite Ew by exact Hn. reflexivity.
  - intros u Hu. specialize (O2 u Hu). unfold cost in O2 at 1 3. unfold out in O2.
    replace (energy (combined (at0 W) x) (width x)) with (energy (combined (fun i => solution x p (at0 a) i / RtoC (cost x loading (solution x p (at0 a))))%C x) (width x))
      by (apply rsum_ext; intros t _; rewrite Ec; reflexivity).
    replace (energy (at0 W) (length x)) with (energy (fun i => solution x p (at0 a) i / RtoC (cost x loading (solution x p (at0 a))))%C (length x))
      by (apply rsum_ext; intros i Hi; rewrite Ew by exact Hi; reflexivity). exact O2.
Qed.
Print Assumptions C68_capon_minimises_power.
(** A stream arriving from the focus is passed on unchanged, next to what remains of everything else *)
Theorem C68_capon_is_distortionless : forall inv loading arr carrier f v s e x y, inverts inv -> rigid (base arr) -> aimed arr f v -> 0 <= loading ->
  (0 < length x)%nat -> width x = length s ->
  (forall n t, (n < length x)%nat -> (t < length s)%nat -> at2 x n t = (at2 (arriving (wavefront arr carrier v RX) s) n t + at2 e n t)%C) ->
  capon_receive inv loading arr carrier [f] [x] = Ok [y] ->
  exists w r, y = [r] /\ length r = length s /\ forall t, (t < length s)%nat -> at0 r t = (at0 s t + csum (fun n => conj (w n) * at2 e n t) (length x))%C.
Proof.
  intros inv loading arr carrier f v s e x y Hinv Hb Hf Hl H0 Hw Hx H.
  destruct (C68_capon_minimises_power inv loading arr carrier f v x y Hinv Hb Hf Hl H0 H) as [w [La [Ey [G _]]]].
  exists w, (tab (width x) (combined w x)). split; [exact Ey|]. split; [rewrite length_tab; exact Hw|].
  intros t Ht. rewrite Hw, at0_tab by exact Ht. unfold combined.
  transitivity (csum (fun n => conj (w n) * at0 (wavefront arr carrier v RX) n * at0 s t + conj (w n) * at2 e n t)%C (length x)).
  - apply csum_ext. intros n Hn. rewrite Hx by assumption. rewrite at2_arriving by (try exact Ht; rewrite La; exact Hn). ring.
  - rewrite csum_plus, csum_scal_r, G. ring.
Qed.
Print Assumptions C68_capon_is_distortionless.

(** ** C69: the null steering beamformer *)
Lemma null_weights_null : forall pinvh arr carrier a0 a1 a2 v, pseudo_inverts pinvh -> rigid (base arr) ->
  v = From_Spherical (fst a1) (snd a1) \/ v = From_Spherical (fst a2) (snd a2) ->
  csum (fun n => at0 (null_weights pinvh arr carrier a0 a1 a2) n * at0 (wavefront arr carrier v DUPLEX) n)%C (length (antennas arr)) = RtoC 0.
Proof.
  intros pinvh arr carrier a0 a1 a2 v Hp Hb Hv.
  set (A := fun i k => at0 (if Nat.eqb k 0 then spherical_phase_response arr carrier (fst a1) (snd a1) DUPLEX else spherical_phase_response arr carrier (fst a2) (snd a2) DUPLEX) i).
  assert (Hm : exists m, (m < 2)%nat /\ forall i, at0 (wavefront arr carrier v DUPLEX) i = A i m).
  { destruct Hv as [->| ->]; [exists 0%nat|exists 1%nat]; (split; [lia|]); intros i; unfold A; cbn [Nat.eqb]; rewrite response_wavefront by exact Hb; reflexivity. }
  destruct Hm as [m [Hm Em]].
  pose proof (null_sum (length (antennas arr)) A (pinvh (fun k l => csum (fun i => A i k * conj (A i l))%C (length (antennas arr))))
    (at0 (spherical_phase_response arr carrier (fst a0) (snd a0) DUPLEX))) as K. cbv zeta in K.
  assert (Hherm : forall i j, (i < 2)%nat -> (j < 2)%nat -> csum (fun n => A n i * conj (A n j))%C (length (antennas arr)) = conj (csum (fun n => A n j * conj (A n i))%C (length (antennas arr)))).
  { intros i j _ _. rewrite conj_csum. apply csum_ext. intros n _. rewrite conj_mult, conj_conj. ring. }
  specialize (K (Hp _ Hherm) m Hm).
  transitivity (csum (fun i => null_projection pinvh arr carrier a0 a1 a2 i * A i m)%C (length (antennas arr)) / RtoC (null_norm pinvh arr carrier a0 a1 a2))%C.
  - unfold Cdiv. rewrite <- csum_scal_r. apply csum_ext. intros i Hi. unfold null_weights. rewrite at0_tab by exact Hi. rewrite Em. unfold Cdiv. ring.
  - assert (K' : csum (fun i => null_projection pinvh arr carrier a0 a1 a2 i * A i m)%C (length (antennas arr)) = RtoC 0) by exact K. rewrite K'. unfold Cdiv. ring.
Qed.

Lemma separable_norm : forall pinvh arr carrier a0 a1 a2, rigid (base arr) ->
  separable arr carrier (From_Spherical (fst a0) (snd a0)) (From_Spherical (fst a1) (snd a1)) (From_Spherical (fst a2) (snd a2)) ->
  0 < energy (null_projection pinvh arr carrier a0 a1 a2) (length (antennas arr)).
Proof.
  intros pinvh arr carrier a0 a1 a2 Hb Hs. pose proof (energy_pos (null_projection pinvh arr carrier a0 a1 a2) (length (antennas arr))) as P.
  destruct (Rle_lt_or_eq_dec _ _ P) as [L|E]; [exact L|]. exfalso. apply Hs. symmetry in E. pose proof (energy_zero _ _ E) as Z.
  unfold null_projection in Z. rewrite !response_wavefront in Z by exact Hb.
  set (w0 := wavefront arr carrier (From_Spherical (fst a0) (snd a0)) DUPLEX) in *. set (w1 := wavefront arr carrier (From_Spherical (fst a1) (snd a1)) DUPLEX) in *. set (w2 := wavefront arr carrier (From_Spherical (fst a2) (snd a2)) DUPLEX) in *.
  match type of Z with context [pinvh ?g] => set (x := pinvh g) in Z end. clearbody x.
  exists (csum (fun j => csum (fun l => x 0%nat l * at0 (if Nat.eqb l 0 then w1 else w2) j) 2 * at0 w0 j)%C (length (antennas arr))),
         (csum (fun j => csum (fun l => x 1%nat l * at0 (if Nat.eqb l 0 then w1 else w2) j) 2 * at0 w0 j)%C (length (antennas arr))).
  intros n Hn. specialize (Z n Hn).
  match type of Z with (?a - ?b)%C = _ => assert (Eab : a = b) by (transitivity (a - b + b)%C; [ring|rewrite Z; ring]) end.
  rewrite Eab. rewrite <- !csum_scal_r. rewrite <- csum_plus. apply csum_ext. intros j _. cbn [csum Nat.eqb]. ring.
Qed.
Lemma null_norm_energy : forall pinvh arr carrier a0 a1 a2,
  null_norm pinvh arr carrier a0 a1 a2 = sqrt (energy (null_projection pinvh arr carrier a0 a1 a2) (length (antennas arr))).
Proof.
  intros. unfold null_norm. f_equal. rewrite (csum_ext _ (fun i => conj (null_projection pinvh arr carrier a0 a1 a2 i) * null_projection pinvh arr carrier a0 a1 a2 i)%C) by (intros; ring).
  change (fst (inner (null_projection pinvh arr carrier a0 a1 a2) (null_projection pinvh arr carrier a0 a1 a2) (length (antennas arr))) = energy (null_projection pinvh arr carrier a0 a1 a2) (length (antennas arr))).
  rewrite inner_self. reflexivity.
Qed.
Lemma null_weights_unit : forall pinvh arr carrier a0 a1 a2, 0 < energy (null_projection pinvh arr carrier a0 a1 a2) (length (antennas arr)) ->
  energy (at0 (null_weights pinvh arr carrier a0 a1 a2)) (length (antennas arr)) = 1.
Proof.
  intros pinvh arr carrier a0 a1 a2 H. pose proof (null_norm_energy pinvh arr carrier a0 a1 a2) as En.
  set (w := null_projection pinvh arr carrier a0 a1 a2) in *. set (N := length (antennas arr)) in *. set (r := null_norm pinvh arr carrier a0 a1 a2) in *.
  assert (Hr : 0 < r) by (rewrite En; apply sqrt_lt_R0; exact H).
  assert (Er : r * r = energy w N) by (rewrite En; apply sqrt_sqrt; lra).
  transitivity (energy w N * / (r * r)).
  - unfold energy. rewrite Rmult_comm, <- rsum_scal. apply rsum_ext. intros i Hi. unfold null_weights. rewrite at0_tab by exact Hi. fold r w.
    rewrite Cmod_div by (apply RtoC_neq; lra). rewrite Cmod_R, Rabs_right by lra. field. lra.
  - rewrite <- Er. field. lra.
Qed.
(** Streams are sent with unchanged total power, and nothing of them arrives in the two null directions *)
Theorem C69_null_steering_transmits_nothing_to_the_nulls : forall pinvh arr carrier f0 f1 f2 v0 v1 v2 s, pseudo_inverts pinvh -> rigid (base arr) ->
  aimed arr f0 v0 -> aimed arr f1 v1 -> aimed arr f2 v2 -> separable arr carrier v0 v1 v2 ->
  exists x, null_transmit pinvh arr carrier [f0; f1; f2] 1 [[s]] = Ok [x] /\ length x = length (antennas arr) /\
  forall t, (t < length s)%nat ->
    energy (fun n => at2 x n t) (length x) = Cmod (at0 s t) ^ 2 /\
    radiated (wavefront arr carrier v1 DUPLEX) x t = RtoC 0 /\ radiated (wavefront arr carrier v2 DUPLEX) x t = RtoC 0.
Proof.
  intros pinvh arr carrier f0 f1 f2 v0 v1 v2 s Hp Hb H0 H1 H2 Hs.
  set (w := null_weights pinvh arr carrier (spherical_angles arr f0) (spherical_angles arr f1) (spherical_angles arr f2)).
  exists (arriving w s). split; [reflexivity|]. assert (Lw : length w = length (antennas arr)) by apply length_tab.
  split; [rewrite length_arriving; exact Lw|]. intros t Ht.
  rewrite <- (aimed_angles arr f0 v0 Hb H0), <- (aimed_angles arr f1 v1 Hb H1), <- (aimed_angles arr f2 v2 Hb H2) in Hs.
  assert (K : forall v, v = v1 \/ v = v2 -> radiated (wavefront arr carrier v DUPLEX) (arriving w s) t = RtoC 0).
  { intros v Hv. unfold radiated. rewrite length_wavefront. change (select DUPLEX (antennas arr)) with (antennas arr).
    transitivity (csum (fun n => at0 w n * at0 (wavefront arr carrier v DUPLEX) n) (length (antennas arr)) * at0 s t)%C.
    - rewrite <- csum_scal_r. apply csum_ext. intros n Hn. rewrite at2_arriving by (rewrite ?Lw; assumption). ring.
    - unfold w. rewrite null_weights_null; [ring|exact Hp|exact Hb|]. rewrite (aimed_angles arr f1 v1 Hb H1), (aimed_angles arr f2 v2 Hb H2). exact Hv. }
  split; [|split; apply K; tauto].
  rewrite length_arriving, Lw. transitivity (energy (at0 w) (length (antennas arr)) * Cmod (at0 s t) ^ 2).
  - rewrite Rmult_comm. unfold energy. rewrite <- rsum_scal. apply rsum_ext. intros n Hn. rewrite at2_arriving by (rewrite ?Lw; assumption). rewrite Cmod_mult. ring.
  - unfold w. rewrite null_weights_unit; [ring|]. apply separable_norm; assumption.
Qed.
Print Assumptions C69_null_steering_transmits_nothing_to_the_nulls.
Theorem C69_null_steering_receives_nothing_from_the_nulls : forall pinvh arr carrier f0 f1 f2 v0 v1 v2 s, pseudo_inverts pinvh -> rigid (base arr) ->
  aimed arr f0 v0 -> aimed arr f1 v1 -> aimed arr f2 v2 -> separable arr carrier v0 v1 v2 -> (0 < length (antennas arr))%nat ->
  select RX (antennas arr) = antennas arr ->
  forall v, v = v1 \/ v = v2 ->
  null_receive pinvh arr carrier [f0; f1; f2] [arriving (wavefront arr carrier v RX) s] = Ok [[map (fun _ => RtoC 0) s]].
Proof.
  intros pinvh arr carrier f0 f1 f2 v0 v1 v2 s Hp Hb H0 H1 H2 Hs Hl Hrx v Hv. unfold null_receive, decode_streams. cbn [length Nat.eqb negb map mapM].
  unfold angle. cbn [nth]. unfold null_decode. cbn [mapM].
  set (w := null_weights pinvh arr carrier (spherical_angles arr f0) (spherical_angles arr f1) (spherical_angles arr f2)).
  assert (Lw : length w = length (antennas arr)) by apply length_tab. rewrite Hrx, Lw, Nat.eqb_refl. cbn [bind].
  assert (Ewf : wavefront arr carrier v RX = wavefront arr carrier v DUPLEX) by (unfold wavefront; rewrite Hrx; reflexivity). rewrite Ewf.
  assert (Lf : length (wavefront arr carrier v DUPLEX) = length (antennas arr)) by (rewrite length_wavefront; reflexivity).
  rewrite weigh_arriving by lia. cbn [bind first nth]. rewrite Lf. unfold w. rewrite null_weights_null; [|exact Hp|exact Hb|].
  - unfold first. cbn [nth]. do 3 f_equal. apply map_ext. intros. ring.
  - rewrite (aimed_angles arr f1 v1 Hb H1), (aimed_angles arr f2 v2 Hb H2). exact Hv.
Qed.
Print Assumptions C69_null_steering_receives_nothing_from_the_nulls.
(** With antennas that only transmit nothing is received at all *)
Theorem C69_null_steering_needs_receiving_antennas : forall pinvh arr carrier f0 f1 f2 x,
  (1 < length (antennas arr))%nat -> (length (select RX (antennas arr)) < length (antennas arr))%nat ->
  null_receive pinvh arr carrier [f0; f1; f2] [x] = Raise ValueError.
Proof.
  intros pinvh arr carrier f0 f1 f2 x H1 H2. unfold null_receive, decode_streams. cbn [length Nat.eqb negb map mapM].
  unfold angle. cbn [nth]. unfold null_decode. cbn [mapM]. unfold null_weights. rewrite length_tab.
  replace (Nat.eqb (length (antennas arr)) (length (select RX (antennas arr)))) with false by (symmetry; apply Nat.eqb_neq; lia).
  replace (Nat.eqb (length (antennas arr)) 1) with false by (symmetry; apply Nat.eqb_neq; lia). reflexivity.
Qed.
Print Assumptions C69_null_steering_needs_receiving_antennas.

(** *** The oracles exist: two by two inverses and pseudo-inverses *)
Definition det2 (g : nat -> nat -> C) : C := (g 0%nat 0%nat * g 1%nat 1%nat - g 0%nat 1%nat * g 1%nat 0%nat)%C.
Definition adjugate (g : nat -> nat -> C) (i j : nat) : C :=
  match i, j with
  | 0%nat, 0%nat => g 1%nat 1%nat
  | 0%nat, _ => (- g 0%nat 1%nat)%C
  | _, 0%nat => (- g 1%nat 0%nat)%C
  | _, _ => g 0%nat 0%nat
  end.
Definition trace2 (g : nat -> nat -> C) : C := (g 0%nat 0%nat + g 1%nat 1%nat)%C.
Definition inv2 (n : nat) (g : nat -> nat -> C) : result (nat -> nat -> C) :=
  if Nat.eqb n 2 then if Ceq_dec (det2 g) (RtoC 0) then Raise ValueError else Ok (fun i j => (adjugate g i j / det2 g)%C) else Raise ValueError.
Definition pinv2 (g : nat -> nat -> C) (i j : nat) : C :=
  if Ceq_dec (det2 g) (RtoC 0) then if Ceq_dec (trace2 g) (RtoC 0) then RtoC 0 else (g i j / (trace2 g * trace2 g))%C else (adjugate g i j / det2 g)%C.
Lemma two : forall P : nat -> nat -> Prop, P 0%nat 0%nat -> P 0%nat 1%nat -> P 1%nat 0%nat -> P 1%nat 1%nat -> forall i j, (i < 2)%nat -> (j < 2)%nat -> P i j.
Proof. intros P H00 H01 H10 H11 i j Hi Hj. destruct i as [|[|i]], j as [|[|j]]; try assumption; lia. Qed.
Lemma inv2_inverts : inverts inv2.
Proof.
  intros n m p H. unfold inv2 in H. destruct (Nat.eqb n 2) eqn:En; [|discriminate]. apply Nat.eqb_eq in En. subst n.
  destruct (Ceq_dec (det2 m) (RtoC 0)) as [E|E]; [discriminate|]. assert (Ep : p = fun i j => (adjugate m i j / det2 m)%C) by congruence. subst p. clear H.
  apply (two (fun i j => csum (fun k => m i k * (adjugate m k j / det2 m))%C 2 = identity_entry i j));
    unfold identity_entry; cbn [csum Nat.eqb adjugate]; unfold det2 in E |- *; field; exact E.
Qed.
Lemma pinv2_inverts : pseudo_inverts pinv2.
Proof.
  intros g Hg. unfold pinv2.
  destruct (Ceq_dec (det2 g) (RtoC 0)) as [E|E].
  - destruct (Ceq_dec (trace2 g) (RtoC 0)) as [Et|Et].
    + assert (Z : forall i j, (i < 2)%nat -> (j < 2)%nat -> g i j = RtoC 0).
      { pose proof (Hg 0 0 ltac:(lia) ltac:(lia))%nat as H00. pose proof (Hg 1 1 ltac:(lia) ltac:(lia))%nat as H11. pose proof (Hg 0 1 ltac:(lia) ltac:(lia))%nat as H01. pose proof (Hg 1 0 ltac:(lia) ltac:(lia))%nat as H10.
        unfold det2 in E. unfold trace2 in Et.
        assert (K : g 0%nat 0%nat = RtoC 0 /\ g 0%nat 1%nat = RtoC 0 /\ g 1%nat 0%nat = RtoC 0 /\ g 1%nat 1%nat = RtoC 0).
        { generalize dependent (g 0%nat 0%nat). generalize dependent (g 0%nat 1%nat). generalize dependent (g 1%nat 0%nat). generalize dependent (g 1%nat 1%nat).
          intros [d d'] H11 [c c'] [b b'] H01 H10 [a a'] E Et H00. unfold conj, Cplus, Cminus, Cmult, Copp, RtoC in *. cbn [fst snd] in *.
          apply pair_equal_spec in H11 as [_ H11]. apply pair_equal_spec in H01 as [H01 H01']. apply pair_equal_spec in H00 as [_ H00]. apply pair_equal_spec in E as [E E']. apply pair_equal_spec in Et as [Et Et']. clear H10. cbn [fst snd] in E, E', Et, Et'.
          assert (a' = 0) by lra. assert (d' = 0) by lra. subst. assert (d = - a) by lra. subst. 
          assert (Q : a * a + c * c + c' * c' = 0) by nra.
          assert (a = 0) by nra. assert (c = 0) by nra. assert (c' = 0) by nra. subst. repeat split; f_equal; ring. }
        destruct K as [Ka [Kb [Kc Kd]]]. apply two; assumption. }
      intros i j Hi Hj. rewrite Z by assumption. cbn [csum]. rewrite !Z by lia. ring.
    + apply (two (fun i j => csum (fun k => csum (fun l => g i l * (g l k / (trace2 g * trace2 g))) 2 * g k j)%C 2 = g i j)); cbn [csum];
      unfold trace2, det2 in *; generalize dependent (g 0%nat 0%nat); generalize dependent (g 0%nat 1%nat); generalize dependent (g 1%nat 0%nat); generalize dependent (g 1%nat 1%nat);
      intros d c b a E Et.
      * transitivity (a - (a + a + d) * (a * d - b * c) / ((a + d) * (a + d)))%C; [field; exact Et|rewrite E; field; exact Et].
      * transitivity (b - b * (a * d - b * c) / ((a + d) * (a + d)))%C; [field; exact Et|rewrite E; field; exact Et].
      * transitivity (c - c * (a * d - b * c) / ((a + d) * (a + d)))%C; [field; exact Et|rewrite E; field; exact Et].
      * transitivity (d - (d + d + a) * (a * d - b * c) / ((a + d) * (a + d)))%C; [field; exact Et|rewrite E; field; exact Et].
  - apply (two (fun i j => csum (fun k => csum (fun l => g i l * (adjugate g l k / det2 g)) 2 * g k j)%C 2 = g i j));
    cbn [csum adjugate]; unfold det2 in E |- *; field; exact E.
Qed.
Example C68_capon_met : let arr := mkArray (mkT eye zero) (elements [0; 1]) in let x := [[RtoC 1; RtoC 2]; [RtoC 3; Ci]] in
  inverts inv2 /\ rigid (base arr) /\ aimed arr (Spherical 0 0) (V (cos 0 * sin 0) (sin 0 * sin 0) (cos 0)) /\
  (exists y, capon_receive inv2 1 arr carrier2 [Spherical 0 0] [x] = Ok [y]) /\ (exists y, capon_receive inv2 0 arr carrier2 [Spherical 0 0] [x] = Ok [y]).
Proof.
  cbv zeta. split; [exact inv2_inverts|]. split; [apply rigid_unturned; reflexivity|]. split; [reflexivity|].
  unfold capon_receive, decode_streams. cbn [length Nat.eqb negb map mapM]. unfold capon_decode. cbn [length]. unfold inv2. cbn [Nat.eqb].
  split; (destruct (Ceq_dec _ _) as [E|E]; [exfalso|]; [|eexists; reflexivity]);
  unfold det2, covariance, at2, at0, width in E; cbn [length nth csum Nat.eqb] in E; unfold conj, Ci, RtoC, Cplus, Cminus, Cmult, Copp in E; cbn [fst snd] in E; injection E as E _; lra.
Qed.
(** Four antennas half a wavelength apart: the nulls at zenith pi/2 and 0, the focus at zenith pi/3 *)
Definition four : array := mkArray (mkT eye zero) (elements [0; 1; 2; 3]).
Lemma four_wavefront : forall v, wavefront four carrier2 v DUPLEX = [RtoC 1; cis (PI * vz v); cis (2 * (PI * vz v)); cis (3 * (PI * vz v))].
Proof.
  intros [x y z]. unfold wavefront, four. cbn [antennas elements map select filter amode mode_eqb negb apose translation]. rewrite !phase2. comps.
  rewrite <- cis_0. do 4 (apply (f_equal2 cons); [apply f_equal; ring|]). reflexivity.
Qed.

Lemma cis_half : cis (PI / 2) = Ci.
Proof. unfold cis. rewrite cos_PI2, sin_PI2. reflexivity. Qed.
Lemma cis_PI : cis PI = (- RtoC 1)%C.
Proof. unfold cis. rewrite cos_PI, sin_PI. unfold RtoC, Copp. cbn [fst snd]. f_equal. ring. Qed.
Definition zenith_direction (z : R) : vec := V (cos 0 * sin z) (sin 0 * sin z) (cos z).
Lemma four_focus : wavefront four carrier2 (zenith_direction (PI / 3)) DUPLEX = [RtoC 1; Ci; (- RtoC 1)%C; (- Ci)%C].
Proof.
  rewrite four_wavefront. cbn [zenith_direction vz]. rewrite cos_PI3. replace (PI * (1 / 2)) with (PI / 2) by lra.
  replace (2 * (PI / 2)) with PI by lra. replace (3 * (PI / 2)) with (PI / 2 + PI) by lra. rewrite cis_add, cis_half, cis_PI. do 3 f_equal. f_equal. ring.
Qed.
Lemma four_broadside : wavefront four carrier2 (zenith_direction (PI / 2)) DUPLEX = [RtoC 1; RtoC 1; RtoC 1; RtoC 1].
Proof.
  rewrite four_wavefront. cbn [zenith_direction vz]. rewrite cos_PI2. replace (PI * 0) with 0 by ring. replace (2 * 0) with 0 by ring. replace (3 * 0) with 0 by ring. rewrite cis_0. reflexivity.
Qed.
Lemma four_endfire : wavefront four carrier2 (zenith_direction 0) DUPLEX = [RtoC 1; (- RtoC 1)%C; RtoC 1; (- RtoC 1)%C].
Proof.
  rewrite four_wavefront. cbn [zenith_direction vz]. rewrite cos_0. replace (PI * 1) with PI by ring. replace (2 * PI) with (PI + PI) by ring. replace (3 * PI) with (PI + PI + PI) by ring.
  rewrite !cis_add, cis_PI. f_equal. f_equal. f_equal; [ring|]. f_equal. ring.
Qed.
Lemma four_separable : separable four carrier2 (zenith_direction (PI / 3)) (zenith_direction (PI / 2)) (zenith_direction 0).
Proof.
  intros [c [d H]]. pose proof (H 0%nat ltac:(cbn; lia)) as E0. pose proof (H 2%nat ltac:(cbn; lia)) as E2. clear H.
  rewrite four_focus, four_broadside, four_endfire in E0, E2. unfold at0 in E0, E2. cbn [nth] in E0, E2. rewrite <- E0 in E2.
  apply (f_equal fst) in E2. unfold RtoC, Copp in E2. cbn [fst] in E2. lra.
Qed.
Lemma four_angles : forall z, spherical_angles four (Spherical 0 z) = (0, z).
Proof. reflexivity. Qed.
Lemma four_response : forall z, spherical_phase_response four carrier2 0 z DUPLEX = wavefront four carrier2 (zenith_direction z) DUPLEX.
Proof. intros z. rewrite response_wavefront by (apply rigid_unturned; reflexivity). do 2 f_equal. apply vec_eq; unfold From_Spherical, zenith_direction; cbn; ring. Qed.
Example C69_null_steering_met : pseudo_inverts pinv2 /\ rigid (base four) /\ aimed four (Spherical 0 (PI / 3)) (zenith_direction (PI / 3)) /\
  aimed four (Spherical 0 (PI / 2)) (zenith_direction (PI / 2)) /\ aimed four (Spherical 0 0) (zenith_direction 0) /\
  separable four carrier2 (zenith_direction (PI / 3)) (zenith_direction (PI / 2)) (zenith_direction 0) /\ select RX (antennas four) = antennas four.
Proof.
  split; [exact pinv2_inverts|]. split; [apply rigid_unturned; reflexivity|]. repeat (split; [reflexivity|]). split; [exact four_separable|reflexivity].
Qed.
(** In the same scene the focus receives nothing either, although other weights of the same power serve it *)
Theorem C69_null_steering_serves_the_focus_refuted : exists arr carrier f0 f1 f2 v0 v1 v2, rigid (base arr) /\ aimed arr f0 v0 /\ aimed arr f1 v1 /\ aimed arr f2 v2 /\
  separable arr carrier v0 v1 v2 /\
  (forall pinvh, exists x, null_transmit pinvh arr carrier [f0; f1; f2] 1 [[[RtoC 1]]] = Ok [x] /\ radiated (wavefront arr carrier v0 DUPLEX) x 0 = RtoC 0) /\
  exists y, energy (fun n => at2 y n 0) (length y) = 1 /\ radiated (wavefront arr carrier v1 DUPLEX) y 0 = RtoC 0 /\ radiated (wavefront arr carrier v2 DUPLEX) y 0 = RtoC 0 /\
  radiated (wavefront arr carrier v0 DUPLEX) y 0 = RtoC 2.
Proof.
  exists four, carrier2, (Spherical 0 (PI / 3)), (Spherical 0 (PI / 2)), (Spherical 0 0), (zenith_direction (PI / 3)), (zenith_direction (PI / 2)), (zenith_direction 0).
  split; [apply rigid_unturned; reflexivity|]. repeat (split; [reflexivity|]). split; [exact four_separable|]. split.
  - intros pinvh. exists (arriving (null_weights pinvh four carrier2 (0, PI / 3) (0, PI / 2) (0, 0)) [RtoC 1]). split; [reflexivity|].
    set (k := null_norm pinvh four carrier2 (0, PI / 3) (0, PI / 2) (0, 0)).
    assert (E : forall i, (i < 4)%nat -> at0 (null_weights pinvh four carrier2 (0, PI / 3) (0, PI / 2) (0, 0)) i = (at0 (wavefront four carrier2 (zenith_direction (PI / 3)) DUPLEX) i / RtoC k)%C).
    { intros i Hi. unfold null_weights. change (length (antennas four)) with 4%nat. rewrite at0_tab by exact Hi. fold k. f_equal. unfold null_projection. cbn [fst snd]. rewrite !four_response.
      change (length (antennas four)) with 4%nat. match goal with |- context [pinvh ?g] => generalize (pinvh g) end. intros x.
      rewrite four_broadside, four_endfire, four_focus. match goal with |- (?a - ?b)%C = ?a => assert (Eb : b = RtoC 0) end.
      { unfold at0. cbn [csum Nat.eqb nth]. ring. } rewrite Eb. ring. }
    set (w := null_weights pinvh four carrier2 (0, PI / 3) (0, PI / 2) (0, 0)) in *. unfold radiated. rewrite length_wavefront. change (length (select DUPLEX (antennas four))) with 4%nat.
    rewrite (csum_ext _ (fun n => at0 (wavefront four carrier2 (zenith_direction (PI / 3)) DUPLEX) n * at0 (wavefront four carrier2 (zenith_direction (PI / 3)) DUPLEX) n * / RtoC k)%C).
    + rewrite csum_scal_r, four_focus. unfold at0. cbn [csum nth]. match goal with |- (?s * _)%C = _ => assert (Es : s = RtoC 0) end.
      { unfold Ci, RtoC, Cplus, Cmult, Copp. cbn [fst snd]. f_equal; ring. } rewrite Es. ring.
    + intros n Hn. rewrite at2_arriving by (try (cbn; lia); unfold w, null_weights; rewrite length_tab; exact Hn). rewrite E by exact Hn. unfold at0 at 3. cbn [nth]. unfold Cdiv. ring.
  - exists [[RtoC (1 / 2)]; [(- RtoC (1 / 2) * Ci)%C]; [(- RtoC (1 / 2))%C]; [(RtoC (1 / 2) * Ci)%C]].
    rewrite four_focus, four_broadside, four_endfire. split; [|unfold radiated, at2, at0; cbn [length csum nth]; unfold Ci, RtoC, Cplus, Cmult, Copp; cbn [fst snd]; repeat split; f_equal; lra].
    unfold energy. cbn [length rsum]. unfold at2, at0. cbn [nth]. rewrite !Cmod_mult, !Cmod_opp, !Cmod_R, Rabs_right by lra. unfold Cmod, Ci. cbn [fst snd].
    replace (0 ^ 2 + 1 ^ 2) with 1 by ring. rewrite sqrt_1. lra.
Qed.
Print Assumptions C69_null_steering_serves_the_focus_refuted.

(** Any other number of focus points than the beamformer has, and any other number of streams than one, is refused *)
Theorem C67_wrong_requests_are_refused : forall arr carrier f streams blocks,
  (length f <> 1%nat -> conventional_receive arr carrier f blocks = Raise ValueError /\ conventional_transmit arr carrier f streams blocks = Raise ValueError) /\
  (streams <> 1%nat -> conventional_transmit arr carrier f streams blocks = Raise ValueError).
Proof.
  intros arr carrier f streams blocks. unfold conventional_receive, conventional_transmit, decode_streams, encode_streams.
  split; [ intros Hf; split | intros Hs ].
  - rewrite (proj2 (Nat.eqb_neq _ _) Hf). reflexivity.
  - rewrite (proj2 (Nat.eqb_neq _ _) Hf). destruct (Nat.eqb streams 1); reflexivity.
  - rewrite (proj2 (Nat.eqb_neq _ _) Hs). reflexivity.
Qed.
Print Assumptions C67_wrong_requests_are_refused.
Theorem C68_wrong_requests_are_refused : forall inv loading arr carrier f blocks, length f <> 1%nat ->
  capon_receive inv loading arr carrier f blocks = Raise ValueError.
Proof.
  intros inv loading arr carrier f blocks Hf. unfold capon_receive, decode_streams. rewrite (proj2 (Nat.eqb_neq _ _) Hf). reflexivity.
Qed.
Print Assumptions C68_wrong_requests_are_refused.
Theorem C69_wrong_requests_are_refused : forall pinvh arr carrier f streams blocks,
  (length f <> 3%nat -> null_receive pinvh arr carrier f blocks = Raise ValueError /\ null_transmit pinvh arr carrier f streams blocks = Raise ValueError) /\
  (streams <> 1%nat -> null_transmit pinvh arr carrier f streams blocks = Raise ValueError).
Proof.
  intros pinvh arr carrier f streams blocks. unfold null_receive, null_transmit, decode_streams, encode_streams.
  split; [ intros Hf; split | intros Hs ].
  - rewrite (proj2 (Nat.eqb_neq _ _) Hf). reflexivity.
  - rewrite (proj2 (Nat.eqb_neq _ _) Hf). destruct (Nat.eqb streams 1); reflexivity.
  - rewrite (proj2 (Nat.eqb_neq _ _) Hs). reflexivity.
Qed.
Print Assumptions C69_wrong_requests_are_refused.
Example wrong_requests_met : length [Spherical 0 0; Spherical 1 1] <> 1%nat /\ length [Spherical 0 0; Spherical 1 1] <> 3%nat /\ 2%nat <> 1%nat.
Proof. cbn [length]. repeat split; discriminate. Qed.
