(** C94, C95: radar channels. *)
From Coq Require Import List Reals ZArith Lia Lra Bool Arith Permutation.
From Coquelicot Require Import Coquelicot.
From Verif Require Adc_Proofs.
From Verif Require Import Base BaseLemmas Cplx Cplx_Proofs Rot_Model Rot_Spec Rot_Proofs Ant_Model Ant_Spec Ant_Proofs Chan_Model Chan_Spec Chan_Proofs Mf_Proofs Rch_Model Rch_Spec Rch_Proofs.
Import ListNotations.
Open Scope R_scope.

(** Delays are lengths over the speed of light *)
Theorem C94_delays : forall p tx rx, propagation_delay p tx rx * speed_of_light = path_length p tx rx 0 /\ 0 <= propagation_delay p tx rx.
Proof.
  intros p tx rx. split; [ | apply delay_nonneg ]. assert (Hc := light_pos).
  assert (A : forall u v, at_time u v 0 = u) by (intros [u1 u2 u3] [v1 v2 v3]; unfold at_time, vadd, vscale; cbn [vx vy vz]; f_equal; ring).
  destruct p as [q v cs ph a st | a st]; unfold path_length; cbv zeta; rewrite !A; unfold distance; cbn [propagation_delay]; field; lra.
Qed.
Print Assumptions C94_delays.
(** Nothing arrives before the line of sight *)
Theorem C94_line_of_sight_is_first : forall a st q v cs ph a' st' tx rx,
  propagation_delay (InterferencePath a st) tx rx <= propagation_delay (TargetPath q v cs ph a' st') tx rx.
Proof.
  intros. cbn [propagation_delay]. apply Rmult_le_compat_r; [ left; apply Rinv_0_lt_compat; exact light_pos | ].
  replace (vsub (position rx) (position tx)) with (vadd (vsub q (position tx)) (vsub (position rx) q)); [ apply triangle | ].
  apply vec_eq; unfold vadd, vsub; cbn [vx vy vz]; ring.
Qed.
Print Assumptions C94_line_of_sight_is_first.
(** The velocity of an echo is the rate at which its path grows *)
Theorem C94_target_velocity : forall q v cs ph a st tx rx, apart (TargetPath q v cs ph a st) tx rx ->
  exists w, relative_velocity (TargetPath q v cs ph a st) tx rx = Ok w /\
  derivable_pt_lim (path_length (TargetPath q v cs ph a st) tx rx) 0 w.
Proof.
  intros q v cs ph a st tx rx H. eexists. split; [ apply target_velocity; exact H | ]. apply is_derive_Reals. destruct H as [H1 H2].
  unfold path_length. apply (is_derive_plus (V := R_NormedModule)).
  - apply distance_rate. apply norm_apart. exact H1.
  - apply distance_rate. apply norm_apart. intros E. apply H2. symmetry. exact E.
Qed.
Print Assumptions C94_target_velocity.
(** The velocity of interference is the rate at which its path shrinks *)
Theorem C94_interference_velocity : forall a st tx rx, apart (InterferencePath a st) tx rx ->
  exists w, relative_velocity (InterferencePath a st) tx rx = Ok w /\
  derivable_pt_lim (path_length (InterferencePath a st) tx rx) 0 (- w).
Proof.
  intros a st tx rx H. eexists. split; [ apply interference_velocity; exact H | ]. apply is_derive_Reals. cbn [apart] in H.
  unfold path_length. cbv zeta.
  replace (- dot (vsub (velocity tx) (velocity rx)) (vscale (/ norm (vsub (position rx) (position tx))) (vsub (position rx) (position tx))))
    with (dot (vscale (/ norm (vsub (position rx) (position tx))) (vsub (position rx) (position tx))) (vsub (velocity rx) (velocity tx)))
    by (unfold dot, vsub, vscale; cbn [vx vy vz]; ring).
  apply distance_rate. apply norm_apart. intros E. apply H. symmetry. exact E.
Qed.
Print Assumptions C94_interference_velocity.
(** Velocities of paths whose ends coincide are not defined *)
Theorem C94_coinciding_ends : forall p tx rx, ~ apart p tx rx -> relative_velocity p tx rx = Raise ValueError.
Proof. exact velocity_refused. Qed.
Print Assumptions C94_coinciding_ends.

(** Two devices with one ideal antenna each *)
Definition antenna0 : antenna := A DUPLEX Ideal (mkT eye zero).
Definition at_point (p v : vec) : device := Dev v (mkArray (mkT eye p) [antenna0]).
Lemma norm_x : forall a, norm (V a 0 0) = Rabs a.
Proof. intros a. unfold norm, dot. cbn [vx vy vz]. replace (a * a + 0 * 0 + 0 * 0) with (Rsqr a) by (unfold Rsqr; ring). apply sqrt_Rsqr_abs. Qed.
(** A target that leaves and a transmitter that leaves: both paths grow at ten metres per second, the frequency shifts are opposite *)
Theorem C94_doppler_convention_refuted : exists p tx rx p' tx' rx' w w',
  derivable_pt_lim (path_length p tx rx) 0 10 /\ derivable_pt_lim (path_length p' tx' rx') 0 10 /\
  relative_velocity p tx rx = Ok w /\ relative_velocity p' tx' rx' = Ok w' /\
  0 < doppler_shift w 1000000000 /\ doppler_shift w' 1000000000 < 0.
Proof.
  set (p := TargetPath (V 100 0 0) (V 5 0 0) 1 0 false false). set (d := at_point (V 0 0 0) (V 0 0 0)). set (e := at_point (V 100 0 0) (V 10 0 0)).
  assert (Ha : apart p d d) by (cbn; split; intros E; injection E; lra).
  assert (Hb : apart (InterferencePath false false) e d) by (cbn; intros E; injection E; lra).
  destruct (C94_target_velocity _ _ _ _ _ _ _ _ Ha) as [w [Ew Dw]]. destruct (C94_interference_velocity _ _ _ _ Hb) as [w' [Ew' Dw']].
  assert (w = 10).
  { rewrite (target_velocity _ _ _ _ _ _ _ _ Ha) in Ew. injection Ew as <-. change (position d) with (V 0 0 0). change (velocity d) with (V 0 0 0).
    unfold vsub. cbn [vx vy vz]. rewrite !Rminus_0_r, !norm_x. replace (0 - 100) with (- (100)) by ring. rewrite Rabs_Ropp, Rabs_pos_eq by lra. unfold dot, vscale. cbn [vx vy vz]. field. }
  assert (w' = -10).
  { rewrite (interference_velocity _ _ _ _ Hb) in Ew'. injection Ew' as <-. change (position e) with (V 100 0 0). change (velocity e) with (V 10 0 0). change (position d) with (V 0 0 0). change (velocity d) with (V 0 0 0).
    unfold vsub. cbn [vx vy vz]. rewrite !Rminus_0_r, !norm_x. replace (0 - 100) with (- (100)) by ring. rewrite Rabs_Ropp, Rabs_pos_eq by lra. unfold dot, vscale. cbn [vx vy vz]. field. }
  subst w w'. exists p, d, d, (InterferencePath false false), e, d, 10, (-10). replace (- -10) with 10 in Dw' by ring.
  repeat split; try assumption; unfold doppler_shift, speed_of_light; lra.
Qed.
Print Assumptions C94_doppler_convention_refuted.
(** A target seen by the device that illuminates it *)
Theorem C94_monostatic : forall q v cs ph a st d, q <> position d ->
  relative_velocity (TargetPath q v cs ph a st) d d = Ok (2 * (dot (vsub q (position d)) (vsub v (velocity d)) / distance q (position d))) /\
  propagation_delay (TargetPath q v cs ph a st) d d = 2 * distance q (position d) / speed_of_light.
Proof.
  intros q v cs ph a st d H. assert (Hn := norm_apart _ _ H). assert (Hc := light_pos). split.
  - rewrite target_velocity by (split; exact H). f_equal. rewrite (norm_vsub_sym (position d) q). unfold distance, dot, vscale, vsub in *. cbn [vx vy vz] in *. field. lra.
  - cbn [propagation_delay]. rewrite (norm_vsub_sym (position d) q). unfold distance. field. lra.
Qed.
Print Assumptions C94_monostatic.
(** No path changes faster than its ends move *)
Theorem C94_velocities_are_bounded : forall q v cs ph a st tx rx w, relative_velocity (TargetPath q v cs ph a st) tx rx = Ok w ->
  Rabs w <= norm (vsub v (velocity tx)) + norm (vsub (velocity rx) v).
Proof.
  intros q v cs ph a st tx rx w H.
  assert (U : forall u, 0 < norm u -> norm (vscale (/ norm u) u) = 1).
  { intros u Hu. assert (E : norm (vscale (/ norm u) u) * norm (vscale (/ norm u) u) = 1).
    { rewrite norm_sqr. replace (dot (vscale (/ norm u) u) (vscale (/ norm u) u)) with (/ norm u * / norm u * dot u u) by (unfold dot, vscale; cbn [vx vy vz]; ring).
      rewrite <- norm_sqr. field. lra. }
    assert (Hp := norm_nonneg (vscale (/ norm u) u)). nra. }
  cbn [relative_velocity] in H. unfold from_cartesian in H.
  destruct (Req_EM_T (norm (vsub q (position tx))) 0) as [E1 | E1]; [ discriminate | ].
  destruct (Req_EM_T (norm (vsub (position rx) q)) 0) as [E2 | E2]; [ discriminate | ]. cbn [bind] in H. injection H as <-.
  assert (P1 := norm_nonneg (vsub q (position tx))). assert (P2 := norm_nonneg (vsub (position rx) q)).
  eapply Rle_trans; [ apply Rabs_triang | ]. apply Rplus_le_compat.
  - eapply Rle_trans; [ apply cauchy_abs | ]. rewrite U by lra. lra.
  - eapply Rle_trans; [ apply cauchy_abs | ]. rewrite U by lra. lra.
Qed.
Print Assumptions C94_velocities_are_bounded.
(** Exchanging transmitter and receiver *)
Theorem C94_reciprocity : forall p tx rx, apart p tx rx ->
  propagation_delay p rx tx = propagation_delay p tx rx /\ relative_velocity p rx tx = relative_velocity p tx rx.
Proof.
  intros [q v cs ph a st | a st] tx rx H; split.
  - cbn [propagation_delay]. rewrite (norm_vsub_sym q (position rx)), (norm_vsub_sym (position tx) q). f_equal. ring.
  - destruct H as [H1 H2]. rewrite !target_velocity by (split; assumption). f_equal.
    rewrite (norm_vsub_sym (position rx) q), (norm_vsub_sym (position tx) q). unfold dot, vscale, vsub. cbn [vx vy vz]. ring.
  - cbn [propagation_delay]. rewrite (norm_vsub_sym (position tx) (position rx)). reflexivity.
  - cbn [apart] in H. rewrite interference_velocity by (intros E; apply H; symmetry; exact E). rewrite interference_velocity by exact H. f_equal.
    rewrite (norm_vsub_sym (position tx) (position rx)). unfold dot, vscale, vsub. cbn [vx vy vz]. ring.
Qed.
Print Assumptions C94_reciprocity.
Theorem C94_responses_are_reciprocal : forall p tx rx carrier h, duplex tx -> duplex rx -> propagation_response p tx rx carrier = Ok h ->
  exists g, propagation_response p rx tx carrier = Ok g /\ m_rows g = m_cols h /\ m_cols g = m_rows h /\ forall i j, m_at g j i = m_at h i j.
Proof.
  intros [q v cs ph a st | a st] tx rx carrier h Dt Dr H.
  - destruct (target_response _ _ _ _ _ _ _ _ _ _ H) as (r & t & am & Er & Et & Ea & -> & _).
    cbn [propagation_response]. rewrite (response_mode tx RX TX carrier q Dt), (response_mode rx TX RX carrier q Dr), Er, Et. cbn [bind].
    rewrite amplitude_sym, Ea. cbn [bind]. eexists. split; [ reflexivity | ]. split; [ reflexivity | ]. split; [ reflexivity | ].
    intros i j. cbn [mscale m_at]. rewrite inner_sym. reflexivity.
  - destruct (interference_response _ _ _ _ _ _ H) as (r & t & am & Er & Et & Ea & -> & _).
    cbn [propagation_response]. rewrite Er, Et. cbn [bind]. rewrite amplitude_sym, Ea. cbn [bind]. eexists. split; [ reflexivity | ]. split; [ reflexivity | ]. split; [ reflexivity | ].
    intros i j. cbn [mscale m_at]. rewrite inner_sym. reflexivity.
Qed.
Print Assumptions C94_responses_are_reciprocal.
(** The radar equation bounds the power between two antennas *)
Theorem C94_radar_equation : forall q v cs ph att st tx rx carrier h i j, placed tx -> placed rx -> carrier <> 0 -> 0 <= cs ->
  propagation_response (TargetPath q v cs ph att st) tx rx carrier = Ok h -> (i < num_receive rx)%nat -> (j < num_transmit tx)%nat ->
  m_rows h = num_receive rx /\ m_cols h = num_transmit tx /\
  Cmod (m_at h i j) ^ 2 <=
    (if att then (speed_of_light / carrier) ^ 2 * cs / ((4 * PI) ^ 3 * distance q (position tx) ^ 2 * distance (position rx) q ^ 2) else 1).
Proof.
  intros q v cs ph att st tx rx carrier h i j Pt Pr Hc Hs H Hi Hj.
  destruct (target_response _ _ _ _ _ _ _ _ _ _ H) as (r & t & a & Er & Et & Ea & -> & Hr & Ht & [H1 H2]). split; [ exact Hr | ]. split; [ exact Ht | ].
  cbn [mscale m_rows m_cols m_at] in *. cbn [inner m_rows m_cols] in Hr, Ht.
  assert (B : Cmod (m_at (inner r t) i j) ^ 2 <= 1) by (apply (inner_bound _ _ _ _ _ _ _ _ _ _ _ Pr Pt Er Et); lia).
  assert (N : Cmod (m_at (inner r t) i j) ^ 2 >= 0) by (apply Rle_ge, pow2_ge_0).
  rewrite !Cmod_mult, cmod_cis, Rmult_1_r, Rpow_mult_distr, Cmod_RtoC_sqr. cbn [amplitude] in Ea. destruct att.
  - destruct (Req_EM_T carrier 0); [ contradiction | ]. injection Ea as <-.
    assert (N1 : 0 < norm (vsub q (position tx))) by (apply norm_apart; exact H1).
    assert (N2 : 0 < norm (vsub (position rx) q)) by (apply norm_apart; intros E; apply H2; symmetry; exact E).
    unfold distance. rewrite target_amplitude by assumption.
    set (K := (speed_of_light / carrier) ^ 2 * cs / _). assert (0 <= K); [ | nra ]. unfold K. rewrite <- target_amplitude by assumption. apply pow2_ge_0.
  - injection Ea as <-. lra.
Qed.
Print Assumptions C94_radar_equation.
(** Free space bounds interference *)
Theorem C94_free_space : forall att st tx rx carrier h i j, placed tx -> placed rx -> carrier <> 0 ->
  propagation_response (InterferencePath att st) tx rx carrier = Ok h -> (i < length (antennas (arr rx)))%nat -> (j < length (antennas (arr tx)))%nat ->
  m_rows h = length (antennas (arr rx)) /\ m_cols h = length (antennas (arr tx)) /\
  Cmod (m_at h i j) ^ 2 <= (if att then ((speed_of_light / carrier) / (4 * PI * distance (position rx) (position tx))) ^ 2 else 1).
Proof.
  intros att st tx rx carrier h i j Pt Pr Hc H Hi Hj.
  destruct (interference_response _ _ _ _ _ _ H) as (r & t & a & Er & Et & Ea & -> & Hr & Ht & H1). split; [ exact Hr | ]. split; [ exact Ht | ].
  cbn [mscale m_rows m_cols m_at] in *. cbn [inner m_rows m_cols] in Hr, Ht.
  assert (B : Cmod (m_at (inner r t) i j) ^ 2 <= 1) by (apply (inner_bound _ _ _ _ _ _ _ _ _ _ _ Pr Pt Er Et); lia).
  assert (N : Cmod (m_at (inner r t) i j) ^ 2 >= 0) by (apply Rle_ge, pow2_ge_0).
  rewrite Cmod_mult, Rpow_mult_distr, Cmod_RtoC_sqr. cbn [amplitude] in Ea. destruct att.
  - destruct (Req_EM_T carrier 0); [ contradiction | ]. injection Ea as <-. unfold distance.
    assert (0 <= (speed_of_light / carrier / (4 * PI * norm (vsub (position rx) (position tx)))) ^ 2) by apply pow2_ge_0. nra.
  - injection Ea as <-. lra.
Qed.
Print Assumptions C94_free_space.
(** A target seen through one antenna that transmits and receives: amplitude and phase *)
Theorem C94_own_echo : forall q v cs ph st d carrier h i e, placed d -> duplex d -> carrier <> 0 -> 0 <= cs ->
  nth_error (antennas (arr d)) i = Some e -> (akind e = Ideal \/ exists s, akind e = Linear s) ->
  propagation_response (TargetPath q v cs ph true st) d d carrier = Ok h ->
  m_at h i i = (RtoC (speed_of_light / carrier * sqrt cs / (Rpower (4 * PI) (3 / 2) * distance q (position d) ^ 2)) *
                cis (ph - 2 * PI * carrier * (2 * distance (scene_position (arr d) e) q) / speed_of_light))%C.
Proof.
  intros q v cs ph st d carrier h i e [P1 P2] Dd Hc Hs He Hk H.
  destruct (target_response _ _ _ _ _ _ _ _ _ _ H) as (r & t & a & Er & Et & Ea & -> & _ & _ & [Hq _]).
  rewrite (response_mode d TX RX carrier q Dd), Er in Et. injection Et as <-. cbn [amplitude] in Ea. destruct (Req_EM_T carrier 0); [ contradiction | ]. injection Ea as <-.
  assert (N : 0 < norm (vsub q (position d))) by (apply norm_apart; exact Hq).
  assert (E : exists c, nth i r (RtoC 0, (0, 0)) = (cis (- (2 * PI * carrier * distance (scene_position (arr d) e) q / speed_of_light)), c) /\ Ant_Spec.power c = 1).
  { rewrite array_response in Er by exact N. apply (f_equal (fun o => match o with Ok l => l | Raise _ => [] end)) in Er. cbv beta iota in Er. rewrite <- Er. rewrite cartesian_distances by exact P1. rewrite (select_duplex _ RX Dd).
    rewrite combine_nth by (rewrite !map_length; reflexivity).
    assert (Hi : (i < length (antennas (arr d)))%nat) by (apply nth_error_Some; rewrite He; discriminate).
    set (f := fun a => cis (- (2 * PI * carrier * norm (vsub (scene_position (arr d) a) q) / speed_of_light))).
    set (g := fun e => global_characteristics (akind e) (forwards (arr d) e) _).
    rewrite (nth_indep (map f _) (RtoC 0) (f e)) by (rewrite map_length; exact Hi). rewrite (nth_indep (map g _) (0, 0) (g e)) by (rewrite map_length; exact Hi).
    rewrite (map_nth f), (map_nth g), (nth_error_nth _ _ e He). exists (g e). split; [ reflexivity | ]. unfold g.
    rewrite power_kept.
    - destruct Hk as [-> | [s ->]]; [ apply power_ideal | apply power_linear ].
    - unfold forwards, compose. cbn [rotation]. apply proper_mm; [ exact P1 | apply P2; apply (nth_error_In _ _ He) ].
    - apply normalised. apply Rgt_not_eq. exact N. }
  destruct E as [[u w] [En Ew]]. unfold Ant_Spec.power in Ew. cbn [fst snd] in Ew. cbn [mscale m_at]. unfold inner. cbv zeta. cbn [m_at]. rewrite En.
  replace (u * u + w * w) with 1 by lra. set (D := distance (scene_position (arr d) e) q).
  transitivity (RtoC (speed_of_light / carrier * sqrt cs / (Rpower (4 * PI) (3 / 2) * norm (vsub q (position d)) * norm (vsub (position d) q))) *
    (cis ph * cis (- (2 * PI * carrier * D / speed_of_light)) * cis (- (2 * PI * carrier * D / speed_of_light))))%C; [ ring | ].
  rewrite <- !cis_add. f_equal.
  - rewrite (norm_vsub_sym (position d) q). unfold distance. do 2 f_equal. ring.
  - f_equal. unfold Rdiv. ring.
Qed.
Print Assumptions C94_own_echo.
(** The cases meet the theorems' hypotheses: a radar and a target a hundred metres away *)
Definition radar0 : device := at_point (V 0 0 0) (V (-5) 0 0).
Definition target0 : path := TargetPath (V 100 0 0) (V 0 0 0) 1 0 true true.
Lemma radar0_duplex : duplex radar0.
Proof. intros a [<- | []]. reflexivity. Qed.
Lemma radar0_placed : placed radar0.
Proof.
  assert (P : proper eye) by (split; [ apply mat_eq; cbn; ring | unfold det, eye; cbn; ring ]).
  split; [ exact P | ]. intros e [<- | []]. exact P.
Qed.
Lemma target0_apart : apart target0 radar0 radar0.
Proof. cbn. split; intros E; injection E; lra. Qed.
Lemma target0_velocity : relative_velocity target0 radar0 radar0 = Ok 10.
Proof.
  unfold target0. rewrite (target_velocity _ _ _ _ _ _ _ _ target0_apart). f_equal. change (position radar0) with (V 0 0 0). change (velocity radar0) with (V (-5) 0 0).
  unfold vsub. cbn [vx vy vz]. rewrite !Rminus_0_r, !norm_x. replace (0 - 100) with (- (100)) by ring. rewrite Rabs_Ropp, Rabs_pos_eq by lra. unfold dot, vscale. cbn [vx vy vz]. field.
Qed.
Example C94_met : apart target0 radar0 radar0 /\ duplex radar0 /\ placed radar0 /\
  (exists h, propagation_response target0 radar0 radar0 speed_of_light = Ok h /\ Cmod (m_at h 0 0) <> 0) /\
  ~ apart (InterferencePath true true) radar0 radar0 /\ relative_velocity target0 radar0 radar0 = Ok 10.
Proof.
  split; [ exact target0_apart | ]. split; [ exact radar0_duplex | ]. split; [ exact radar0_placed | ]. split; [ | split; [ intros H; apply H; reflexivity | exact target0_velocity ] ].
  assert (Hc : speed_of_light <> 0) by (apply Rgt_not_eq; exact light_pos).
  destruct (response_defined target0 radar0 radar0 speed_of_light target0_apart Hc) as [h Eh]. exists h. split; [ exact Eh | ].
  rewrite (C94_own_echo _ _ _ _ _ _ _ _ 0 antenna0 radar0_placed radar0_duplex Hc Rle_0_1 eq_refl (or_introl eq_refl) Eh).
  rewrite Cmod_mult, cmod_cis, Rmult_1_r, Cmod_R. apply Rabs_no_R0. change (position radar0) with (V 0 0 0). unfold distance, vsub. cbn [vx vy vz]. rewrite !Rminus_0_r, norm_x, Rabs_pos_eq by lra.
  rewrite sqrt_1. assert (Hr : 0 < Rpower (4 * PI) (3 / 2)) by (unfold Rpower; apply exp_pos). apply Rgt_not_eq. apply Rmult_lt_0_compat; [ unfold Rdiv; rewrite Rinv_r by exact Hc; lra | apply Rinv_0_lt_compat; nra ].
Qed.

(** ** C95 *)
(** Receivers see the sum of the echoes of all paths *)
Theorem C95_superposition : forall ps gain tx rx bandwidth carrier time s, 0 < bandwidth -> carrier <> 0 -> streams s = num_transmit tx ->
  (forall p, In p ps -> apart p tx rx /\ (interferes p -> duplex tx /\ duplex rx)) ->
  (ps <> [] -> exists q w, In q ps /\ relative_velocity q tx rx = Ok w /\ -1 < 2 * w * INR (samples s) / (bandwidth * speed_of_light)) ->
  exists y, propagate ps gain tx rx bandwidth carrier time s = Ok y /\ streams y = num_receive rx /\ (samples s <= samples y)%nat /\
  (forall p, In p ps -> (whole (propagation_delay p tx rx * bandwidth) + samples s <= samples y)%nat) /\
  forall r k, (r < num_receive rx)%nat -> x y r k = (RtoC (sqrt gain) * total_echo ps tx rx bandwidth carrier time s r k)%C.
Proof.
  intros ps gain tx rx B carrier time s HB Hc Hs Hp Hq. apply propagate_echoes; try assumption.
  intros Hn. destruct (Hq Hn) as (q & w & H1 & H2 & H3). exists q. split; [ exact H1 | ]. rewrite (speed_ok _ _ _ _ H2). exact H3.
Qed.
Print Assumptions C95_superposition.
(** Without any path the receiver gets silence of the signal's duration *)
Theorem C95_no_paths : forall gain tx rx bandwidth carrier time s, exists y, propagate [] gain tx rx bandwidth carrier time s = Ok y /\
  streams y = num_receive rx /\ samples y = samples s /\ offset y = offset s /\ forall r k, x y r k = RtoC 0.
Proof.
  intros gain tx rx B carrier time s. unfold propagate. cbn [map mapM bind combine fold_left overhead]. rewrite Z.add_0_r. destruct (Z.ltb_spec (Z.of_nat (samples s)) 0); [lia|].
  eexists. split; [reflexivity|]. cbn [streams samples offset x]. rewrite Nat2Z.id. repeat split. intros r k. apply Cmult_0_l.
Qed.
Print Assumptions C95_no_paths.
(** Signals shorter than a second and paths slower than half the speed of light always meet the last condition *)
Theorem C95_ordinary_velocities : forall ps gain tx rx bandwidth carrier time s, 0 < bandwidth -> carrier <> 0 -> streams s = num_transmit tx ->
  (forall p, In p ps -> apart p tx rx /\ (interferes p -> duplex tx /\ duplex rx)) ->
  INR (samples s) / bandwidth <= 1 -> (forall p w, In p ps -> relative_velocity p tx rx = Ok w -> Rabs w < speed_of_light / 2) ->
  exists y, propagate ps gain tx rx bandwidth carrier time s = Ok y /\
  forall r k, (r < num_receive rx)%nat -> x y r k = (RtoC (sqrt gain) * total_echo ps tx rx bandwidth carrier time s r k)%C.
Proof.
  intros ps gain tx rx B carrier time s HB Hc Hs Hp Hd Hw.
  destruct (C95_superposition ps gain tx rx B carrier time s HB Hc Hs Hp) as (y & Ey & _ & _ & _ & Xy); [ | exists y; split; assumption ].
  intros Hn. destruct ps as [ | q ps]; [ contradiction | ]. destruct (Hp q (or_introl eq_refl)) as [Ha _]. destruct (velocity_defined _ _ _ Ha) as [w Ew].
  exists q, w. split; [ left; reflexivity | ]. split; [ exact Ew | ]. specialize (Hw q w (or_introl eq_refl) Ew). assert (Hl := light_pos).
  replace (2 * w * INR (samples s) / (B * speed_of_light)) with (2 * (w / speed_of_light) * (INR (samples s) / B)) by (field; lra).
  assert (H0 : 0 <= INR (samples s) / B) by (apply Rmult_le_pos; [ apply pos_INR | left; apply Rinv_0_lt_compat; exact HB ]).
  assert (H1 : - (1 / 2) < w / speed_of_light).
  { apply Rabs_def2 in Hw. destruct Hw as [_ Hw]. apply (Rmult_lt_reg_r speed_of_light); [ exact Hl | ]. unfold Rdiv at 2. rewrite Rmult_assoc, Rinv_l by lra. lra. }
  set (u := w / speed_of_light) in *. set (D := INR (samples s) / B) in *.
  destruct (Rle_dec 0 u) as [Hu | Hu]; [ assert (0 <= u * D) by (apply Rmult_le_pos; lra); lra | ].
  assert (u * 1 <= u * D) by (apply Rmult_le_compat_neg_l; lra). lra.
Qed.
Print Assumptions C95_ordinary_velocities.
(** Echoes of a target that approaches shorten the output: it may become too short for them *)
Theorem C95_short_outputs_refuted : exists ps tx rx s, streams s = num_transmit tx /\
  (forall p, In p ps -> apart p tx rx /\ ~ interferes p) /\ propagate ps 1 tx rx 1 1000000000 0 s = Raise ValueError.
Proof.
  set (q := TargetPath (V speed_of_light 0 0) (V (- speed_of_light / 400) 0 0) 1 0 true false). set (d := at_point (V 0 0 0) (V 0 0 0)).
  set (s := Blk 1 200 0 (fun _ _ => RtoC 1)). exists [q], d, d, s. assert (Hl := light_pos).
  assert (Ha : apart q d d) by (cbn; split; intros E; injection E; lra).
  assert (Hn : norm (V speed_of_light 0 0) = speed_of_light) by (rewrite norm_x; apply Rabs_pos_eq; lra).
  assert (Ev : relative_velocity q d d = Ok (- speed_of_light / 200)).
  { destruct (C94_monostatic (V speed_of_light 0 0) (V (- speed_of_light / 400) 0 0) 1 0 true false d (proj1 Ha)) as [E _]. fold q in E. rewrite E. f_equal.
    change (position d) with (V 0 0 0). change (velocity d) with (V 0 0 0). unfold distance, vsub. cbn [vx vy vz]. rewrite !Rminus_0_r, Hn. unfold dot. cbn [vx vy vz]. field. lra. }
  assert (Ed : propagation_delay q d d = 2).
  { destruct (C94_monostatic (V speed_of_light 0 0) (V (- speed_of_light / 400) 0 0) 1 0 true false d (proj1 Ha)) as [_ E]. fold q in E. rewrite E.
    change (position d) with (V 0 0 0). unfold distance, vsub. cbn [vx vy vz]. rewrite !Rminus_0_r, Hn. field. lra. }
  split; [ reflexivity | ]. split; [ intros p [<- | []]; split; [ exact Ha | intros [] ] | ].
  unfold propagate. cbn [map mapM]. rewrite Ev, Ed. cbn [bind combine fold_left overhead maximum fst snd]. cbn [s samples].
  replace (2 * 1 + 2 * (- speed_of_light / 200) * INR 200 / (1 * speed_of_light)) with 0 by (rewrite INR_IZR_INZ; cbn [Z.of_nat]; replace (IZR (Z.of_nat 200)) with 200 by reflexivity; field; lra).
  assert (I0 : Int_part (- 0) = 0%Z) by (apply Adc_Proofs.Int_part_unique; rewrite Ropp_0; split; lra). rewrite I0.
  replace (Z.of_nat 200 + - 0 <? 0)%Z with false by reflexivity.
  assert (Hc : 1000000000 <> 0) by lra. destruct (response_defined q d d 1000000000 Ha Hc) as [h Eh].
  unfold add_propagation. rewrite Eh. cbn [bind s samples streams].
  assert (I2 : Int_part (2 * 1) = 2%Z) by (apply Adc_Proofs.Int_part_unique; split; lra). assert (W2 : whole (2 * 1) = 2%nat) by (unfold whole; rewrite I2; reflexivity). rewrite W2.
  destruct (negb (compatible (m_cols h) 1 || Nat.eqb 1 1)); [ reflexivity | ]. destruct (negb (compatible (m_rows h) (num_receive d))); reflexivity.
Qed.
Print Assumptions C95_short_outputs_refuted.
(** Outputs depend linearly on inputs *)
Theorem C95_linearity : forall ps gain tx rx bandwidth carrier time a b s t y z, streams t = streams s -> samples t = samples s ->
  propagate ps gain tx rx bandwidth carrier time s = Ok y -> propagate ps gain tx rx bandwidth carrier time t = Ok z ->
  exists w, propagate ps gain tx rx bandwidth carrier time (combined a b s t) = Ok w /\ streams w = streams y /\ samples w = samples y /\
  forall r k, (x w r k = a * x y r k + b * x z r k)%C.
Proof.
  intros ps gain tx rx B carrier time a b s t y z Hst Hsa H1 H2. assert (V := propagate_velocities _ _ _ _ _ _ _ _ _ H1).
  rewrite propagate_eq in * by exact V. cbv zeta in *. cbn [combined samples] in *. rewrite Hsa in H2.
  set (tot := (Z.of_nat (samples s) + _)%Z) in *. destruct (tot <? 0)%Z; [ discriminate | ].
  destruct (fold_left (step tx rx s B carrier time (Z.to_nat tot)) _ _) as [y1 | ] eqn:E1; cbn [bind] in H1; [ | discriminate ].
  destruct (fold_left (step tx rx t B carrier time (Z.to_nat tot)) _ _) as [y2 | ] eqn:E2; cbn [bind] in H2; [ | discriminate ].
  injection H1 as <-. injection H2 as <-.
  destruct (fold_linear tx rx B carrier time (Z.to_nat tot) a b s t _ _ _ (fun _ _ => RtoC 0) y1 y2 Hst Hsa E1 E2) as [w [Ew Xw]]; [ intros; ring | ].
  fold (combined a b s t). rewrite Ew. cbn [bind]. eexists. split; [ reflexivity | ]. cbn [streams samples x]. split; [ reflexivity | ]. split; [ reflexivity | ].
  intros r k. rewrite Xw. ring.
Qed.
Print Assumptions C95_linearity.
(** The order in which paths were added does not matter *)
Theorem C95_order_is_irrelevant : forall ps qs gain tx rx bandwidth carrier time s y, Permutation ps qs ->
  propagate ps gain tx rx bandwidth carrier time s = Ok y ->
  exists z, propagate qs gain tx rx bandwidth carrier time s = Ok z /\ streams z = streams y /\ samples z = samples y /\ offset z = offset y /\
  forall r k, x z r k = x y r k.
Proof.
  intros ps qs gain tx rx B carrier time s y P H. assert (V := propagate_velocities _ _ _ _ _ _ _ _ _ H). assert (V' := mapM_perm _ _ _ _ P V).
  rewrite propagate_eq in H by exact V. rewrite propagate_eq by exact V'. cbv zeta in *.
  rewrite <- (overhead_perm (map (fun p => propagation_delay p tx rx) ps) (map (fun p => propagation_delay p tx rx) qs) (map (fun p => speed p tx rx) ps) (map (fun p => speed p tx rx) qs)) by (apply Permutation_map; exact P).
  set (tot := (Z.of_nat (samples s) + _)%Z) in *. destruct (tot <? 0)%Z; [ discriminate | ].
  destruct (fold_left _ _ _) as [y1 | ] eqn:E1 in H; cbn [bind] in H; [ | discriminate ]. injection H as <-.
  destruct (fold_perm _ _ _ _ _ _ _ _ _ (Permutation_map (triple tx rx) P) _ _ E1) as [z [Ez Xz]]. rewrite Ez. cbn [bind].
  eexists. split; [ reflexivity | ]. cbn [streams samples x offset]. split; [ reflexivity | ]. split; [ reflexivity | ]. split; [ reflexivity | ]. intros r k. rewrite Xz. reflexivity.
Qed.
Print Assumptions C95_order_is_irrelevant.
(** Channel states apply the same echoes, up to the requested number of taps *)
Theorem C95_states : forall ps gain tx rx bandwidth carrier time s n taps, carrier <> 0 -> streams s = num_transmit tx ->
  (forall p, In p ps -> apart p tx rx /\ (interferes p -> duplex tx /\ duplex rx)) -> (samples s <= n)%nat -> (0 < taps)%nat ->
  exists c y, state ps gain tx rx bandwidth carrier time n taps = Ok c /\ csi_propagate c s = Ok y /\ streams y = num_receive rx /\ samples y = (samples s + taps - 1)%nat /\
  forall r k, (r < num_receive rx)%nat ->
    x y r k = (RtoC (sqrt gain) * total_echo (filter (fun p => Nat.ltb (whole (propagation_delay p tx rx * bandwidth)) taps) ps) tx rx bandwidth carrier time s r k)%C.
Proof.
  intros ps gain tx rx B carrier time s n taps Hc Hs Hp Hn Ht.
  destruct (fold_taps tx rx B carrier time taps ps (fun _ _ _ _ => RtoC 0) Hc Hp) as [raw [Er Xr]].
  assert (Es : state ps gain tx rx B carrier time n taps = Ok (impulse_csi (num_receive rx) (num_transmit tx) n taps (fun r t i k => (raw r t i k * RtoC (sqrt gain))%C))).
  { unfold state. change (fold_left (fun acc p => do a <- acc; add_state p tx rx B carrier time taps a)) with (fold_left (sstep tx rx B carrier time taps)). rewrite Er. reflexivity. }
  eexists. destruct (csi_propagate_received (impulse_csi (num_receive rx) (num_transmit tx) n taps (fun r t i k => (raw r t i k * RtoC (sqrt gain))%C)) s eq_refl Ht Hs Hn) as [y (Ey & Sy & Ny & Xy)].
  exists y. split; [ exact Es | ]. split; [ exact Ey | ]. cbn [impulse_csi nrx ntaps] in *. split; [ exact Sy | ]. split; [ exact Ny | ].
  intros r k Hr. rewrite Xy by exact Hr. unfold received, csi_taps. rewrite total_map. cbn [td weight ntaps impulse_csi h].
  unfold total_echo. rewrite total_filter. rewrite (total_ext (fun a => if Nat.ltb _ taps then _ else _) _ ps (fun p _ => eq_sym (taps_echo p tx rx B carrier time s r k taps))).
  rewrite total_swap, <- total_scal. apply total_ext. intros d Hd. apply in_seq in Hd. rewrite total_csum, <- csum_scal. apply csum_ext. intros t Htt.
  destruct (Nat.leb d k && Nat.ltb k (d + samples s))%bool.
  - rewrite Xr by (try exact Hr; lia). rewrite (total_ext (fun p => (tap p tx rx B carrier time r t (k - d) d * x s t (k - d)%nat)%C) (fun p => (x s t (k - d)%nat * tap p tx rx B carrier time r t (k - d) d)%C)) by (intros; ring). rewrite total_scal. ring.
  - rewrite total_0. ring.
Qed.
Print Assumptions C95_states.
Theorem C95_states_describe_propagation : forall ps gain tx rx bandwidth carrier time s n taps, 0 < bandwidth -> carrier <> 0 -> streams s = num_transmit tx ->
  (forall p, In p ps -> apart p tx rx /\ (interferes p -> duplex tx /\ duplex rx)) ->
  (ps <> [] -> exists q w, In q ps /\ relative_velocity q tx rx = Ok w /\ -1 < 2 * w * INR (samples s) / (bandwidth * speed_of_light)) ->
  (samples s <= n)%nat -> (0 < taps)%nat -> (forall p, In p ps -> (whole (propagation_delay p tx rx * bandwidth) < taps)%nat) ->
  exists c y z, state ps gain tx rx bandwidth carrier time n taps = Ok c /\ csi_propagate c s = Ok y /\ propagate ps gain tx rx bandwidth carrier time s = Ok z /\
  streams y = streams z /\ forall r k, (r < num_receive rx)%nat -> x y r k = x z r k.
Proof.
  intros ps gain tx rx B carrier time s n taps HB Hc Hs Hp Hq Hn Ht Hd.
  destruct (C95_superposition ps gain tx rx B carrier time s HB Hc Hs Hp Hq) as (z & Ez & Sz & _ & _ & Xz).
  destruct (C95_states ps gain tx rx B carrier time s n taps Hc Hs Hp Hn Ht) as (c & y & Ec & Ey & Sy & _ & Xy).
  exists c, y, z. split; [ exact Ec | ]. split; [ exact Ey | ]. split; [ exact Ez | ]. split; [ congruence | ]. intros r k Hr. rewrite Xy, Xz by exact Hr.
  rewrite filter_all; [ reflexivity | ]. intros p Hin. apply Nat.ltb_lt. apply Hd. exact Hin.
Qed.
Print Assumptions C95_states_describe_propagation.
(** The null hypothesis of a sample at time zero lacks exactly the echoes of what moves *)
Theorem C95_null_hypothesis : forall ps gain tx rx bandwidth carrier s y y0, 0 < bandwidth -> carrier <> 0 -> streams s = num_transmit tx ->
  (forall p, In p ps -> apart p tx rx /\ (interferes p -> duplex tx /\ duplex rx)) ->
  (forall p w, In p ps -> relative_velocity p tx rx = Ok w -> -1 < 2 * w * INR (samples s) / (bandwidth * speed_of_light)) ->
  propagate ps gain tx rx bandwidth carrier 0 s = Ok y -> null_propagate ps gain tx rx bandwidth carrier 0 s = Ok y0 ->
  forall r k, (r < num_receive rx)%nat ->
  (x y r k = x y0 r k + RtoC (sqrt gain) * total_echo (filter (fun p => negb (is_static p)) ps) tx rx bandwidth carrier 0 s r k)%C.
Proof.
  intros ps gain tx rx B carrier s y y0 HB Hc Hs Hp Hv H H0 r k Hr.
  assert (Sup : forall qs, (forall p, In p qs -> In p ps) -> exists z, propagate qs gain tx rx B carrier 0 s = Ok z /\ x z r k = (RtoC (sqrt gain) * total_echo qs tx rx B carrier 0 s r k)%C).
  { intros qs Hi. destruct (C95_superposition qs gain tx rx B carrier 0 s HB Hc Hs) as (z & Ez & _ & _ & _ & Xz).
    - intros p Hin. apply Hp. apply Hi. exact Hin.
    - intros Hn. destruct qs as [ | q qs]; [ contradiction | ]. assert (Hq := Hi q (or_introl eq_refl)). destruct (velocity_defined q tx rx (proj1 (Hp q Hq))) as [w Ew].
      exists q, w. split; [ left; reflexivity | ]. split; [ exact Ew | ]. exact (Hv q w Hq Ew).
    - exists z. split; [ exact Ez | ]. apply Xz. exact Hr. }
  destruct (Sup ps (fun p Hin => Hin)) as (z & Ez & Xz). destruct (Sup (null_paths ps)) as (z0 & Ez0 & Xz0); [ intros p Hin; apply filter_In in Hin; tauto | ].
  unfold null_propagate in H0. rewrite Ez in H. injection H as <-. rewrite Ez0 in H0. injection H0 as <-. rewrite Xz, Xz0.
  unfold total_echo, null_paths. rewrite !total_filter, <- Cmult_plus_distr_l, <- total_plus. f_equal. apply total_ext. intros p _. destruct (is_static p); cbn [negb]; ring.
Qed.
Print Assumptions C95_null_hypothesis.
(** At later times the echoes that remain do not have their phases *)
Theorem C95_later_null_hypothesis_refuted : exists ps tx rx bandwidth carrier time s y y0, List.Forall (fun p => is_static p = true) ps /\
  propagate ps 1 tx rx bandwidth carrier time s = Ok y /\ null_propagate ps 1 tx rx bandwidth carrier time s = Ok y0 /\ exists k, x y 0%nat k <> x y0 0%nat k.
Proof.
  set (s := Blk 1 1 0 (fun _ _ => RtoC 1)). assert (Hl := light_pos). assert (Hc : speed_of_light <> 0) by lra.
  assert (Hp : forall p, In p [target0] -> apart p radar0 radar0 /\ (interferes p -> duplex radar0 /\ duplex radar0)).
  { intros p [<- | []]. split; [ exact target0_apart | intros [] ]. }
  assert (Hq : [target0] <> [] -> exists q w, In q [target0] /\ relative_velocity q radar0 radar0 = Ok w /\ -1 < 2 * w * INR (samples s) / (1 * speed_of_light)).
  { intros _. exists target0, 10. split; [ left; reflexivity | ]. split; [ exact target0_velocity | ]. cbn [s samples INR].
    apply Rlt_trans with 0; [ lra | ]. apply Rmult_lt_0_compat; [ lra | ]. apply Rinv_0_lt_compat. lra. }
  destruct (C95_superposition [target0] 1 radar0 radar0 1 speed_of_light (/ 20) s Rlt_0_1 Hc eq_refl Hp Hq) as (y & Ey & _ & _ & _ & Xy).
  destruct (C95_superposition [target0] 1 radar0 radar0 1 speed_of_light 0 s Rlt_0_1 Hc eq_refl Hp Hq) as (y0 & Ey0 & _ & _ & _ & Xy0).
  exists [target0], radar0, radar0, 1, speed_of_light, (/ 20), s, y, y0. split; [ repeat constructor | ]. split; [ exact Ey | ]. split; [ exact Ey0 | ].
  destruct C94_met as (_ & _ & _ & (h & Eh & Nh) & _). set (d := whole (propagation_delay target0 radar0 radar0 * 1)). exists d.
  assert (R0 : (0 < num_receive radar0)%nat) by (cbn; lia). rewrite Xy, Xy0 by exact R0. unfold total_echo. cbn [total]. unfold echo. rewrite Eh, target0_velocity. fold d.
  replace (Nat.leb d d && Nat.ltb d (d + samples s))%bool with true by (symmetry; apply andb_true_intro; split; [ apply Nat.leb_le; lia | apply Nat.ltb_lt; cbn [s samples]; lia ]).
  rewrite Nat.sub_diag. cbn [s streams csum x INR]. rewrite sqrt_1.
  replace (2 * PI * (10 * speed_of_light / speed_of_light) * (/ 20 + 0 / 1)) with PI by (field; lra).
  replace (2 * PI * (10 * speed_of_light / speed_of_light) * (0 + 0 / 1)) with 0 by (field; lra).
  assert (Cp : cis PI = RtoC (-1)) by (unfold cis; rewrite cos_PI, sin_PI; reflexivity). assert (C0 : cis 0 = RtoC 1) by (unfold cis; rewrite cos_0, sin_0; reflexivity). rewrite Cp, C0.
  intros E. apply Nh. destruct (m_at h 0 0) as [u w]. unfold Cmult, Cplus, RtoC in E. cbn in E. injection E as E1 E2.
  replace u with 0 by lra. replace w with 0 by lra. apply Cmod_0.
Qed.
Print Assumptions C95_later_null_hypothesis_refuted.
(** Interference is exchanged by all antennas: devices some of whose antennas transmit or receive only are refused *)
Theorem C95_interference_shapes : forall att st gain tx rx bandwidth carrier time s y, streams s = num_transmit tx -> streams s <> 1%nat -> num_receive rx <> 1%nat ->
  propagate [InterferencePath att st] gain tx rx bandwidth carrier time s = Ok y ->
  (length (antennas (arr tx)) = num_transmit tx \/ length (antennas (arr tx)) = 1%nat) /\ (length (antennas (arr rx)) = num_receive rx \/ length (antennas (arr rx)) = 1%nat).
Proof.
  intros att st gain tx rx B carrier time s y Hs H1 H2 H. assert (V := propagate_velocities _ _ _ _ _ _ _ _ _ H). rewrite propagate_eq in H by exact V. cbv zeta in H.
  set (tot := (Z.of_nat (samples s) + _)%Z) in *. destruct (tot <? 0)%Z; [ discriminate | ]. cbn [map fold_left] in H. unfold step in H. cbn [triple bind fst snd] in H.
  unfold add_propagation in H. destruct (propagation_response (InterferencePath att st) tx rx carrier) as [h | e] eqn:Eh; cbn [bind] in H; [ | discriminate ].
  destruct (interference_response _ _ _ _ _ _ Eh) as (_ & _ & _ & _ & _ & _ & _ & Hr & Ht & _).
  destruct (negb (compatible (m_cols h) (streams s) || Nat.eqb (streams s) 1)) eqn:Ec; [ discriminate | ].
  destruct (negb (compatible (m_rows h) (num_receive rx))) eqn:Er; [ discriminate | ].
  apply negb_false_iff in Ec, Er. unfold compatible in *. rewrite Hr in Er. rewrite Ht, Hs in Ec. rewrite Hs in H1.
  apply orb_prop in Er. apply orb_prop in Ec. rewrite !Nat.eqb_eq in *. destruct Ec as [Ec | Ec]; [ apply orb_prop in Ec; rewrite !Nat.eqb_eq in Ec | contradiction ]. split; assumption.
Qed.
Print Assumptions C95_interference_shapes.
Theorem C95_interference_refuted : exists tx rx s, apart (InterferencePath true true) tx rx /\ streams s = num_transmit tx /\
  propagate [InterferencePath true true] 1 tx rx 1 1000000000 0 s = Raise ValueError.
Proof.
  set (a := fun m x => A m Ideal (mkT eye (V x 0 0))). set (d := fun p => Dev (V 0 0 0) (mkArray (mkT eye p) [a TX 0; a TX 1; a RX 2; a RX 3])).
  exists (d (V 0 0 0)), (d (V 100 0 0)), (Blk 2 5 0 (fun _ _ => RtoC 1)). split; [ cbn; intros E; injection E; lra | ]. split; [ reflexivity | ].
  destruct (propagate _ 1 (d (V 0 0 0)) (d (V 100 0 0)) 1 1000000000 0 (Blk 2 5 0 (fun _ _ => RtoC 1))) as [y | e] eqn:E.
  - exfalso. destruct (C95_interference_shapes true true 1 (d (V 0 0 0)) (d (V 100 0 0)) 1 1000000000 0 (Blk 2 5 0 (fun _ _ => RtoC 1)) y eq_refl ltac:(discriminate) ltac:(discriminate) E) as [[H | H] _]; discriminate.
  - f_equal. assert (Ha : apart (InterferencePath true true) (d (V 0 0 0)) (d (V 100 0 0))) by (cbn; intros F; injection F; lra).
    rewrite propagate_eq in E by (apply velocities_defined; intros p [<- | []]; exact Ha). cbv zeta in E.
    set (tot := (Z.of_nat _ + _)%Z) in *. destruct (tot <? 0)%Z; [ congruence | ]. cbn [map fold_left] in E. unfold step in E. cbn [triple bind fst snd] in E.
    unfold add_propagation in E. assert (Hc : 1000000000 <> 0) by lra. destruct (response_defined _ _ _ 1000000000 Ha Hc) as [h Eh]. rewrite Eh in E. cbn [bind] in E.
    destruct (negb _); [ cbn [bind] in E; congruence | ]. destruct (negb _); [ cbn [bind] in E; congruence | ]. destruct (negb _); [ cbn [bind] in E; congruence | ]. discriminate.
Qed.
Print Assumptions C95_interference_refuted.
Example C95_met : exists s y, streams s = num_transmit radar0 /\ (forall p, In p [target0] -> apart p radar0 radar0 /\ (interferes p -> duplex radar0 /\ duplex radar0)) /\
  propagate [target0] 1 radar0 radar0 1000000 speed_of_light 0 s = Ok y /\ (exists k, x y 0%nat k <> RtoC 0).
Proof.
  set (s := Blk 1 4 0 (fun _ _ => RtoC 1)). assert (Hl := light_pos). assert (Hc : speed_of_light <> 0) by lra. assert (HB : 0 < 1000000) by lra.
  assert (Hp : forall p, In p [target0] -> apart p radar0 radar0 /\ (interferes p -> duplex radar0 /\ duplex radar0)).
  { intros p [<- | []]. split; [ exact target0_apart | intros [] ]. }
  destruct (C95_superposition [target0] 1 radar0 radar0 1000000 speed_of_light 0 s HB Hc eq_refl Hp) as (y & Ey & _ & _ & _ & Xy).
  { intros _. exists target0, 10. split; [ left; reflexivity | ]. split; [ exact target0_velocity | ]. apply Rlt_trans with 0; [ lra | ].
    apply Rmult_lt_0_compat; [ apply Rmult_lt_0_compat; [ lra | apply (lt_0_INR 4); lia ] | apply Rinv_0_lt_compat; nra ]. }
  exists s, y. split; [ reflexivity | ]. split; [ exact Hp | ]. split; [ exact Ey | ].
  destruct C94_met as (_ & _ & _ & (h & Eh & Nh) & _). set (d := whole (propagation_delay target0 radar0 radar0 * 1000000)). exists d.
  assert (R0 : (0 < num_receive radar0)%nat) by (cbn; lia). rewrite Xy by exact R0. unfold total_echo. cbn [total]. unfold echo. rewrite Eh, target0_velocity. fold d.
  replace (Nat.leb d d && Nat.ltb d (d + samples s))%bool with true by (symmetry; apply andb_true_intro; split; [ apply Nat.leb_le; lia | apply Nat.ltb_lt; cbn [s samples]; lia ]).
  rewrite Nat.sub_diag. cbn [s streams csum x INR]. rewrite sqrt_1. replace (2 * PI * (10 * speed_of_light / speed_of_light) * (0 + 0 / 1000000)) with 0 by (field; lra).
  assert (C0 : cis 0 = RtoC 1) by (unfold cis; rewrite cos_0, sin_0; reflexivity). rewrite C0.
  intros E. apply Nh. destruct (m_at h 0 0) as [u w]. unfold Cmult, Cplus, RtoC in E. cbn in E. injection E as E1 E2.
  replace u with 0 by lra. replace w with 0 by lra. apply Cmod_0.
Qed.
