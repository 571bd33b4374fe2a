(** Properties of antennas and antenna arrays (C64, C65, C66). *)
From Coq Require Import List Reals Lra Lia ZArith.
From Coquelicot Require Import Complex.
From Verif Require Import Base BaseLemmas Cplx Cplx_Proofs Rot_Model Rot_Spec Rot_Proofs Ant_Model Ant_Spec Ant_Proofs.
Import ListNotations.
Open Scope R_scope.

(** A quarter turn of all three axes: x to y, y to z, z to x *)
Definition cycle_axes : mat := M 0 0 1 1 0 0 0 1 0.
Lemma cycle_proper : proper cycle_axes.
Proof. split; [apply mat_eq|]; unfold cycle_axes; comps; ring. Qed.

Lemma one_value : forall {X} (a b : X), Ok [a] = Ok [b] -> a = b.
Proof. intros X a b H. congruence. Qed.

(** C64: the field an antenna radiates turns with the antenna *)
Theorem C64_field_turns_with_the_antenna : forall k t v, rigid t -> unit_vector v ->
  let d := mv (rotation t) v in field d (global_characteristics k t d) = mv (rotation t) (field v (pattern k v)).
Proof. intros k t v Ht Hv. apply field_rotates; [exact Ht|apply norm_one; exact Hv]. Qed.
Print Assumptions C64_field_turns_with_the_antenna.
Example C64_field_met : rigid (mkT cycle_axes (V 1 2 3)) /\ unit_vector (V 0 1 0) /\ pattern (Linear (PI / 2)) (V 0 1 0) = (cos (PI / 2), sin (PI / 2)).
Proof.
  split; [exact cycle_proper|]. split; [unfold unit_vector; apply norm_one; comps; ring|]. reflexivity.
Qed.

Theorem C64_power_is_kept : forall k t v, rigid t -> unit_vector v ->
  power (global_characteristics k t (mv (rotation t) v)) = power (pattern k v).
Proof.
  intros k t v Ht Hv. apply norm_one in Hv. rewrite power_kept; [|exact Ht|rewrite dot_proper; [exact Hv|exact Ht]].
  rewrite <- mv_mm, (proper_transpose _ Ht), mv_eye. reflexivity.
Qed.
Print Assumptions C64_power_is_kept.

Theorem C64_ideal_and_linear_radiate_everywhere : forall k t d, rigid t -> unit_vector d -> k = Ideal \/ (exists s, k = Linear s) ->
  power (global_characteristics k t d) = 1.
Proof.
  intros k t d Ht Hd Hk. rewrite power_kept; [|exact Ht|apply norm_one; exact Hd]. destruct Hk as [->|[s ->]]; [apply power_ideal|apply power_linear].
Qed.
Print Assumptions C64_ideal_and_linear_radiate_everywhere.
Theorem C64_power_is_bounded : forall k t d, rigid t -> unit_vector d ->
  0 <= power (global_characteristics k t d) <= 1 /\ (k = Patch -> 1 / 100 <= power (global_characteristics k t d)).
Proof.
  intros k t d Ht Hd. apply norm_one in Hd. rewrite power_kept by assumption. set (v := mv (transpose (rotation t)) d).
  assert (Hv : dot v v = 1).
  { unfold v. rewrite dot_proper; [exact Hd|]. rewrite <- (minv_proper _ Ht). apply proper_minv. exact Ht. }
  destruct k as [|s| |].
  - rewrite power_ideal. split; [lra|discriminate].
  - rewrite power_linear. split; [lra|discriminate].
  - pose proof (power_patch v). split; [lra|intros _; lra].
  - split; [apply power_dipole; exact Hv|discriminate].
Qed.
Print Assumptions C64_power_is_bounded.
Example C64_dipole_met : power (global_characteristics Dipole no_transformation (V 0 1 0)) = 1 /\
  power (global_characteristics Dipole no_transformation (V 0 0 1)) = 0.
Proof.
  assert (Hn : proper eye) by (split; [apply mat_eq|]; unfold eye; comps; ring).
  assert (E : forall v, mv (transpose (rotation no_transformation)) v = v) by (intros v; apply vec_eq; unfold no_transformation, eye; cbn [rotation]; comps; ring).
  split; (rewrite power_kept; [|exact Hn|comps; ring]); rewrite E; clear E; unfold pattern, power, to_spherical; cbn [vx vy vz local_characteristics fst snd].
  - rewrite acos_0. destruct (Req_EM_T (PI / 2) 0) as [E|E]; [pose proof PI_RGT_0; lra|]. rewrite cos_PI2, Rmult_0_r, cos_0, sin_PI2. field.
  - rewrite acos_1. destruct (Req_EM_T 0 0); lra.
Qed.

(** Directions may be given in either frame *)
Theorem C64_direction_frames_agree : forall arr v m, rigid (base arr) -> Forall (fun a => rigid (apose a)) (antennas arr) -> unit_vector v ->
  exists l, characteristics arr (Towards v) m Local = Ok l /\ characteristics arr (Towards (mv (rotation (base arr)) v)) m Global = Ok l /\
  map power l = map (fun a => power (pattern (akind a) (mv (transpose (rotation (apose a))) v))) (select m (antennas arr)).
Proof.
  intros arr v m Hb Ha Hv. exists (map (fun a => global_characteristics (akind a) (forwards arr a) (mv (rotation (base arr)) v)) (select m (antennas arr))).
  split; [reflexivity|]. split; [reflexivity|]. rewrite map_map. apply map_ext_in. intros a Hin. apply norm_one in Hv.
  assert (Hr : proper (rotation (apose a))).
  { apply (proj1 (Forall_forall _ _) Ha). destruct m; cbn [select] in Hin; try (apply filter_In in Hin; destruct Hin as [Hin _]); exact Hin. }
  rewrite power_kept; [|apply proper_mm; [exact Hb|exact Hr]|rewrite dot_proper; [exact Hv|exact Hb]].
  f_equal. f_equal. unfold forwards, compose. cbn [rotation]. rewrite transpose_mm, mv_mm, <- (mv_mm (transpose (rotation (base arr)))).
  rewrite (proper_transpose _ Hb), mv_eye. reflexivity.
Qed.
Print Assumptions C64_direction_frames_agree.
Theorem C64_location_and_direction_agree : forall arr v r m, unit_vector v -> 0 < r ->
  characteristics arr (Location (vadd (translation (base arr)) (vscale r v))) m Global = characteristics arr (Towards v) m Global.
Proof.
  intros arr v r m Hv Hr. unfold characteristics, from_cartesian.
  replace (vsub (vadd (translation (base arr)) (vscale r v)) (translation (base arr))) with (vscale r v)
    by (generalize (translation (base arr)); intros w; apply vec_eq; comps; ring).
  assert (E : norm (vscale r v) = r).
  { unfold norm. replace (dot (vscale r v) (vscale r v)) with (Rsqr r * dot v v) by (comps; unfold Rsqr; ring).
    rewrite (proj1 (norm_one v) Hv), Rmult_1_r. apply sqrt_Rsqr. lra. }
  rewrite E. destruct (Req_EM_T r 0) as [H|_]; [lra|]. cbn [bind].
  replace (vscale (/ r) (vscale r v)) with v by (apply vec_eq; comps; field; lra). reflexivity.
Qed.
Print Assumptions C64_location_and_direction_agree.
(** Locations in the array's own frame are only understood by arrays which are not turned *)
Theorem C64_location_frames_agree_if_not_turned : forall arr p m, rotation (base arr) = eye ->
  characteristics arr (Location p) m Local = characteristics arr (Location (apply (base arr) p)) m Global.
Proof.
  intros arr p m H. unfold characteristics, apply. rewrite H, mv_eye.
  replace (vsub (vadd p (translation (base arr))) (translation (base arr))) with p by (apply vec_eq; comps; ring). reflexivity.
Qed.
Print Assumptions C64_location_frames_agree_if_not_turned.
Theorem C64_location_frames_agree_refuted : exists arr p, rigid (base arr) /\
  characteristics arr (Location p) DUPLEX Local <> characteristics arr (Location (apply (base arr) p)) DUPLEX Global.
Proof.
  set (arr := mkArray (mkT cycle_axes zero) [A DUPLEX Dipole no_transformation]). exists arr, (V 0 0 1). split; [exact cycle_proper|].
  assert (Ep : apply (base arr) (V 0 0 1) = V 1 0 0) by (apply vec_eq; unfold arr, apply, cycle_axes, zero; cbn [base rotation translation]; comps; ring).
  rewrite Ep. unfold characteristics, from_cartesian. cbn [base arr translation].
  assert (Ez : vsub (V 1 0 0) zero = V 1 0 0) by (apply vec_eq; unfold zero; comps; ring). rewrite Ez.
  assert (N1 : norm (V 0 0 1) = 1) by (apply norm_one; comps; ring). assert (N2 : norm (V 1 0 0) = 1) by (apply norm_one; comps; ring).
  rewrite N1, N2. destruct (Req_EM_T 1 0) as [H|_]; [lra|]. cbn [bind]. rewrite Rinv_1.
  assert (S1 : vscale 1 (V 0 0 1) = V 0 0 1) by (apply vec_eq; comps; ring). assert (S2 : vscale 1 (V 1 0 0) = V 1 0 0) by (apply vec_eq; comps; ring).
  rewrite S1, S2. cbn [select antennas map akind arr]. set (t := forwards arr (A DUPLEX Dipole no_transformation)).
  assert (Et : rotation t = cycle_axes) by (unfold t, forwards, compose; cbn [rotation base arr apose no_transformation]; apply mm_eye_r).
  intros H. apply one_value in H.
  assert (P : power (global_characteristics Dipole t (V 0 0 1)) = power (global_characteristics Dipole t (V 1 0 0))) by (rewrite H; reflexivity).
  rewrite !power_kept in P by (try (rewrite Et; exact cycle_proper); comps; ring). rewrite Et in P.
  assert (R1 : mv (transpose cycle_axes) (V 0 0 1) = V 0 1 0) by (apply vec_eq; unfold cycle_axes; comps; ring).
  assert (R2 : mv (transpose cycle_axes) (V 1 0 0) = V 0 0 1) by (apply vec_eq; unfold cycle_axes; comps; ring).
  rewrite R1, R2 in P. unfold pattern, power, to_spherical in P. cbn [vx vy vz local_characteristics fst snd] in P.
  rewrite acos_0, acos_1 in P. destruct (Req_EM_T (PI / 2) 0) as [E|_]; [pose proof PI_RGT_0; lra|]. destruct (Req_EM_T 0 0) as [_|]; [|lra].
  rewrite cos_PI2, Rmult_0_r, cos_0, sin_PI2 in P. lra.
Qed.
Print Assumptions C64_location_frames_agree_refuted.

(** C65: phase responses *)
Theorem C65_requests_follow_the_modes : forall m l, chosen m l (select m l) /\ (forall r, chosen m l r -> r = select m l).
Proof. intros m l. split; [apply select_chosen|]. intros r. apply chosen_unique. Qed.
Print Assumptions C65_requests_follow_the_modes.
Theorem C65_topology_is_relative : forall arr m, det (rotation (base arr)) <> 0 ->
  topology arr m = map (fun a => translation (apose a)) (select m (antennas arr)).
Proof. exact topology_local. Qed.
Print Assumptions C65_topology_is_relative.
Theorem C65_phases_follow_the_distances : forall arr carrier p m, rigid (base arr) ->
  cartesian_phase_response arr carrier p Global m =
  map (fun a => cis (- (2 * PI * carrier * distance (scene_position arr a) p / speed_of_light))) (select m (antennas arr)).
Proof. intros. apply cartesian_distances. assumption. Qed.
Print Assumptions C65_phases_follow_the_distances.
Theorem C65_position_frames_agree : forall arr carrier p m, det (rotation (base arr)) <> 0 ->
  cartesian_phase_response arr carrier (apply (base arr) p) Global m = cartesian_phase_response arr carrier p Local m.
Proof. intros. unfold cartesian_phase_response. rewrite apply_invert by assumption. reflexivity. Qed.
Print Assumptions C65_position_frames_agree.
Theorem C65_responses_have_unit_modulus : forall arr carrier p f az z m,
  Forall (fun c => Cmod c = 1) (cartesian_phase_response arr carrier p f m) /\
  Forall (fun c => Cmod c = 1) (spherical_phase_response arr carrier az z m) /\
  length (cartesian_phase_response arr carrier p f m) = length (select m (antennas arr)) /\
  length (spherical_phase_response arr carrier az z m) = length (select m (antennas arr)).
Proof.
  intros. unfold cartesian_phase_response, spherical_phase_response, plane_phases, topology.
  repeat split; rewrite ?map_length; try reflexivity; apply Forall_forall; intros c Hc; apply in_map_iff in Hc; destruct Hc as [x [<- _]]; apply cis_modulus.
Qed.
Print Assumptions C65_responses_have_unit_modulus.
Theorem C65_horizontal_is_spherical : forall arr carrier az el m,
  horizontal_phase_response arr carrier az el m = spherical_phase_response arr carrier az (PI / 2 - el) m.
Proof.
  intros. unfold horizontal_phase_response, spherical_phase_response. f_equal. rewrite cos_shift, sin_shift. reflexivity.
Qed.
Print Assumptions C65_horizontal_is_spherical.
(** Towards a distant point the exact response approaches the plane wave response, up to the common phase of the array's distance *)
Theorem C65_far_field : forall arr carrier az z r m i, rigid (base arr) -> 0 < carrier ->
  (i < length (select m (antennas arr)))%nat ->
  let t := nth i (topology arr m) zero in
  norm t < r ->
  Cmod (at0 (cartesian_phase_response arr carrier (vscale r (From_Spherical az z)) Local m) i
        - cis (- (2 * PI * carrier * r / speed_of_light)) * at0 (spherical_phase_response arr carrier az z m) i)%C
  <= 2 * PI * carrier / speed_of_light * (norm t ^ 2 / (2 * (r - norm t))).
Proof.
  intros arr carrier az z r m i Hb Hc Hi t Ht. pose proof PI_RGT_0 as Hpi.
  assert (Hl : (i < length (topology arr m))%nat) by (unfold topology; rewrite map_length; exact Hi).
  unfold cartesian_phase_response, spherical_phase_response, plane_phases, at0.
  rewrite (nth_indep _ (RtoC 0) (cis (- (2 * PI * carrier * norm (vsub zero (vscale r (From_Spherical az z))) / speed_of_light)))) by (rewrite map_length; exact Hl).
  rewrite (map_nth (fun t => cis (- (2 * PI * carrier * norm (vsub t (vscale r (From_Spherical az z))) / speed_of_light)))).
  set (k := V (cos az * sin z) (sin az * sin z) (cos z)).
  rewrite (nth_indep _ (RtoC 0) (cis (2 * PI * carrier * dot k zero / speed_of_light))) by (rewrite map_length; exact Hl).
  rewrite (map_nth (fun t => cis (2 * PI * carrier * dot k t / speed_of_light))). fold t.
  rewrite <- cis_add. eapply Rle_trans; [apply cis_chord|].
  assert (Ek : k = From_Spherical az z) by (apply vec_eq; unfold k, From_Spherical; cbn; ring).
  assert (Hd : dot k k = 1) by (rewrite Ek; apply spherical_unit).
  pose proof (far_distance k t r Hd Ht) as Hf. rewrite Ek in *. set (q := From_Spherical az z) in *.
  set (s := norm (vsub t (vscale r q))) in *.
  replace (- (2 * PI * carrier * s / speed_of_light) - (- (2 * PI * carrier * r / speed_of_light) + 2 * PI * carrier * dot q t / speed_of_light))
    with (- (2 * PI * carrier / speed_of_light * (s - (r - dot q t)))) by (unfold Rdiv; ring).
  assert (Hp : 0 < 2 * PI * carrier / speed_of_light).
  { apply Rdiv_lt_0_compat; [apply Rmult_lt_0_compat; lra|unfold speed_of_light; lra]. }
  rewrite Rabs_Ropp, Rabs_right by (apply Rle_ge; apply Rmult_le_pos; lra).
  apply Rmult_le_compat_l; lra.
Qed.
Print Assumptions C65_far_field.
Definition example_array : array := mkArray (mkT cycle_axes (V 5 6 7)) [A TX Ideal no_transformation; A RX Patch (mkT eye (V 0 3 4)); A DUPLEX Dipole (mkT eye (V 1 0 0))].
Example C65_far_field_met : rigid (base example_array) /\ (1 < length (select RX (antennas example_array)))%nat /\
  topology example_array RX = [V 0 3 4; V 1 0 0] /\ norm (V 0 3 4) < 10.
Proof.
  split; [exact cycle_proper|]. split; [cbn; lia|]. split; [rewrite topology_local by (cbn [base example_array rotation]; unfold cycle_axes; comps; lra); reflexivity|].
  apply Rle_lt_trans with 5; [|lra]. unfold norm. rewrite <- (sqrt_Rsqr 5) by lra. apply sqrt_le_1_alt. comps. unfold Rsqr. lra.
Qed.

(** C66: uniform arrays *)
Theorem C66_history_of_a_uniform_array : forall element spacing dimensions u cs, create_uniform element spacing dimensions = Ok u ->
  let w := changed u cs in
  let '(s, (nx, ny, nz)) := requested (u_spacing u, u_dimensions u) cs in
  u_spacing w = s /\ u_dimensions w = (nx, ny, nz) /\ 0 < s /\
  (forall p, In p (positions w) <->
     exists x y z : nat, (Z.of_nat x < nx /\ Z.of_nat y < ny /\ Z.of_nat z < nz)%Z /\ p = V (s * INR x) (s * INR y) (s * INR z)) /\
  NoDup (positions w) /\
  (forall i j, (i < length (positions w))%nat -> (j < length (positions w))%nat -> i <> j ->
     s <= distance (nth i (positions w) zero) (nth j (positions w) zero)) /\
  Forall (fun a => amode a = amode element /\ akind a = akind element /\ rotation (apose a) = rotation (apose element)) (u_antennas w).
Proof.
  intros element spacing dimensions u cs Hu. destruct (created _ _ _ _ Hu) as [G [Hs [He _]]].
  destruct (changed_generated cs u G Hs) as [Gw [Ew [Hw Rw]]]. set (w := changed u cs) in *. cbv zeta.
  destruct (requested (u_spacing u, u_dimensions u) cs) as [s [[nx ny] nz]]. injection Rw as Es Ed.
  rewrite (positions_generated w Gw), Es, Ed in *.
  split; [reflexivity|]. split; [reflexivity|]. split; [exact Hw|]. split; [|split; [|split]].
  - intros p. rewrite in_map_iff. split.
    + intros [[[x y] z] [<- H]]. apply in_grid in H. exists x, y, z. split; [exact H|reflexivity].
    + intros [x [y [z [H ->]]]]. exists (x, y, z). split; [reflexivity|apply in_grid; exact H].
  - apply FinFun.Injective_map_NoDup; [|apply nodup_grid]. intros a b. apply point_inj. exact Hw.
  - rewrite map_length. intros i j Hi Hj Hn.
    rewrite !(nth_indep (map (point s) _) zero (point s (0, 0, 0)%nat)) by (rewrite map_length; assumption). rewrite !map_nth.
    apply point_gap; [exact Hw|]. intros E. apply Hn. exact (proj1 (NoDup_nth _ _) (nodup_grid _) i j Hi Hj E).
  - rewrite Gw. apply Forall_forall. intros a Ha. apply in_map_iff in Ha. destruct Ha as [[[x y] z] [<- _]]. rewrite Ew, He. repeat split.
Qed.
Print Assumptions C66_history_of_a_uniform_array.
Theorem C66_antennas_are_counted : forall element spacing dimensions u cs, create_uniform element spacing dimensions = Ok u ->
  let w := changed u cs in let '(nx, ny, nz) := u_dimensions w in
  (0 <= nx -> 0 <= ny -> 0 <= nz -> num_antennas w = Z.of_nat (length (u_antennas w)))%Z.
Proof.
  intros element spacing dimensions u cs Hu. destruct (created _ _ _ _ Hu) as [G [Hs [He _]]].
  destruct (changed_generated cs u G Hs) as [Gw [Ew [Hw Rw]]]. set (w := changed u cs) in *. cbv zeta.
  unfold num_antennas. rewrite Gw, map_length. destruct (u_dimensions w) as [[nx ny] nz]. rewrite length_grid. lia.
Qed.
Print Assumptions C66_antennas_are_counted.
Theorem C66_antennas_are_counted_refuted : exists element spacing dimensions u, create_uniform element spacing dimensions = Ok u /\
  num_antennas u <> Z.of_nat (length (u_antennas u)).
Proof.
  set (e := A DUPLEX Ideal no_transformation).
  exists e, 1, [-1; -1]%Z, (update_elements (U e 1 (-1, -1, 1)%Z [])). split.
  - unfold create_uniform, set_spacing. destruct (Rle_dec 1 0) as [H|_]; [lra|]. reflexivity.
  - cbn. discriminate.
Qed.
Print Assumptions C66_antennas_are_counted_refuted.
Example C66_history_met : exists u, create_uniform (A DUPLEX Patch no_transformation) 1 [2; 3]%Z = Ok u /\
  requested (u_spacing u, u_dimensions u) [Spacing (-1); Dimensions [4]%Z; Spacing 2; Dimensions [1; 1; 1; 1]%Z; Dimensions [3; 2]%Z] = (2, (3, 2, 1)%Z) /\
  positions u = [V 0 0 0; V 1 0 0; V 0 1 0; V 1 1 0; V 0 2 0; V 1 2 0].
Proof.
  set (e := A DUPLEX Patch no_transformation).
  exists (update_elements (U e 1 (2, 3, 1)%Z [])). split; [|split].
  - unfold create_uniform, set_spacing. destruct (Rle_dec 1 0) as [H|_]; [lra|]. reflexivity.
  - unfold requested. cbn [fold_left request fst snd]. destruct (Rlt_dec 0 (-1)) as [H|_]; [lra|]. cbn [fst snd].
    destruct (Rlt_dec 0 2) as [_|H]; [reflexivity|lra].
  - unfold positions, update_elements. cbn [u_antennas u_element u_spacing u_dimensions].
    change (grid_points (2, 3, 1)%Z) with [(0, 0, 0); (1, 0, 0); (0, 1, 0); (1, 1, 0); (0, 2, 0); (1, 2, 0)]%nat.
    cbn [map place translation apose]. cbn [INR]. rewrite ?Rmult_0_r, ?Rmult_1_l. reflexivity.
Qed.

(** Subarrays consist of the requested antennas at the given positions, counted from the end if negative; positions outside the array raise an error. *)
Theorem C65_subarrays : forall arr indices m,
  let l := select m (antennas arr) in
  (Forall (fun i => - Z.of_nat (length l) <= i < Z.of_nat (length l))%Z indices ->
     exists sub, select_subarray arr indices m = Ok sub /\ base sub = base arr /\
       Forall2 (fun i a => nth_error l (Z.to_nat (i mod Z.of_nat (length l))) = Some a) indices (antennas sub)) /\
  (Exists (fun i => i < - Z.of_nat (length l) \/ Z.of_nat (length l) <= i)%Z indices -> select_subarray arr indices m = Raise IndexError).
Proof.
  intros arr indices m l. unfold select_subarray. fold l.
  assert (P : forall i, (- Z.of_nat (length l) <= i < Z.of_nat (length l))%Z -> exists a, pick l i = Ok a /\ nth_error l (Z.to_nat (i mod Z.of_nat (length l))) = Some a).
  { intros i Hi. unfold pick. assert (E : (if (i <? 0)%Z then (i + Z.of_nat (length l))%Z else i) = (i mod Z.of_nat (length l))%Z).
    { destruct (Z.ltb_spec i 0) as [N|N]; [|rewrite Z.mod_small by lia; reflexivity]. rewrite <- (Z.mod_small (i + Z.of_nat (length l)) (Z.of_nat (length l))) by lia.
      replace (i + Z.of_nat (length l))%Z with (i + 1 * Z.of_nat (length l))%Z by lia. apply Z.mod_add. lia. }
    rewrite E. assert (B := Z.mod_pos_bound i (Z.of_nat (length l)) ltac:(lia)). destruct (Z.ltb_spec (i mod Z.of_nat (length l)) 0) as [N|N]; [lia|].
    destruct (nth_error l (Z.to_nat (i mod Z.of_nat (length l)))) as [a|] eqn:F; [exists a; split; reflexivity|]. apply nth_error_None in F. lia. }
  split; intro H.
  - assert (Q : exists r, mapM (pick l) indices = Ok r /\ Forall2 (fun i a => nth_error l (Z.to_nat (i mod Z.of_nat (length l))) = Some a) indices r).
    { induction H as [|i r Hi Hr IH]; [exists []; split; [reflexivity|constructor]|]. destruct (P i Hi) as [a [A1 A2]]. destruct IH as [rs [R1 R2]]. exists (a :: rs). cbn [mapM]. rewrite A1. cbn [bind]. rewrite R1. split; [reflexivity|constructor; assumption]. }
    destruct Q as [r [R1 R2]]. rewrite R1. exists (mkArray (base arr) r). split; [reflexivity|]. split; [reflexivity|exact R2].
  - assert (Q : mapM (pick l) indices = Raise IndexError).
    { assert (A : forall i, (exists a, pick l i = Ok a) \/ pick l i = Raise IndexError). { intro i. unfold pick. cbv zeta. match goal with |- context [if Z.ltb ?j 0 then Raise IndexError else _] => destruct (Z.ltb j 0) end; [right; reflexivity|]. match goal with |- context [nth_error l ?j] => destruct (nth_error l j) as [a|] end; [left; exists a; reflexivity|right; reflexivity]. }
      induction H as [i r Hi|i r Hr IH]; cbn [mapM].
      - replace (pick l i) with (Raise (A := antenna) IndexError); [reflexivity|]. symmetry. unfold pick. destruct (Z.ltb_spec i 0) as [N|N].
        + destruct (Z.ltb_spec (i + Z.of_nat (length l)) 0); [reflexivity|lia].
        + destruct (Z.ltb_spec i 0); [reflexivity|]. destruct (nth_error l (Z.to_nat i)) eqn:F; [|reflexivity]. assert (S0 : (Z.to_nat i < length l)%nat) by (apply nth_error_Some; congruence). lia.
      - destruct (A i) as [[a ->]| ->]; cbn [bind]; [|reflexivity]. rewrite IH. reflexivity. }
    rewrite Q. reflexivity.
Qed.
Print Assumptions C65_subarrays.
