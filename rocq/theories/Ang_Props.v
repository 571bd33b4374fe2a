(** C112: directions of the rays of cluster delay lines. *)
From Coq Require Import List Reals Permutation Lra Lia.
From Verif Require Import Base BaseLemmas Rot_Model Rot_Spec Rot_Proofs Ang_Model Ang_Spec Ang_Proofs.
Import ListNotations.
Open Scope R_scope.

(** Every pair of devices at different positions gets, for each cluster, twenty rays in each of the four angles, scattered around the centres of the
    standard's formulas. The directions of the line of sight are those in the coordinates of the devices. *)
Theorem C112_centres : forall d n tx rx m ca cz, well_formed d n -> rigid tx -> rigid rx -> translation tx <> translation rx ->
  largest (powers (azimuths d)) m -> closest_row azimuth_scales n ca -> closest_row zenith_scales n cz ->
  exists r ta tz ra rz, ray_angles d tx rx = Ok r /\ looks tx rx ta tz /\ looks rx tx ra rz /\ 0 <= tz <= PI /\ 0 <= rz <= PI /\
    length (r_aoa r) = n /\ length (r_zoa r) = n /\ length (r_aod r) = n /\ length (r_zod r) = n /\
    forall i, (i < n)%nat ->
      let los := line_of_sight d in let k := rice d in
      around (nth i (r_aoa r) []) (c_asa d) (centred los (180 * ra / PI) (azimuth_of (azimuths d) m (azimuth_factor los ca k) (asa d)) i) /\
      around (nth i (r_zoa r) []) (c_zsa d) (centred los (180 * rz / PI) (zenith_of (zeniths d) m (zenith_factor los cz k) (zsa d) 0) i) /\
      around (nth i (r_aod r) []) (c_asd d) (centred los (180 * ta / PI) (azimuth_of (azimuths d) m (azimuth_factor los ca k) (asd d)) i) /\
      around (nth i (r_zod r) []) (3 / 8 * Rpower 10 (zod_mean d))
        (centred los (180 * tz / PI) (zenith_of (zeniths d) m (zenith_factor los cz k) (zsd d) (zod_offset d)) i).
Proof.
  intros d n tx rx m ca cz W Rt Rr N M Ca Cz.
  pose proof (closest_row_unique _ _ _ _ (table_scale_spec azimuth_scales n ltac:(discriminate)) Ca) as Ea.
  pose proof (closest_row_unique _ _ _ _ (table_scale_spec zenith_scales n ltac:(discriminate)) Cz) as Ez.
  destruct (local_direction tx rx Rt ltac:(congruence)) as (vt & Et & Lt). destruct (local_direction rx tx Rr N) as (vr & Er & Lr).
  unfold ray_angles. rewrite Et, Er. cbn [bind]. destruct (to_spherical vt) as [ta tz]. destruct (to_spherical vr) as [ra rz].
  destruct W as [Hn Wa Wz Wp W1 W2 W3 W4].
  assert (Np : powers (azimuths d) <> []) by (destruct Wa as (L & _); intros E; rewrite E in L; cbn in L; lia).
  pose proof (largest_unique _ _ _ (peak_largest _ Np) M) as Pk.
  assert (Mp : 0 < m) by (apply Wa; apply M).
  assert (Pp : forall j, (j < n)%nat -> 0 < nth j (powers (azimuths d)) 0) by (intros j Hj; apply Wa; apply nth_In; destruct Wa as (-> & _); exact Hj).
  assert (La : length (powers (azimuths d)) = n) by apply Wa.
  assert (Lz : length (powers (zeniths d)) = n) by apply Wz.
  assert (A : forall s j, (j < n)%nat -> nth j (signs (azimuths d)) 0 * azimuth_angle (line_of_sight d) (rice d) s (azimuths d) (nth j (powers (azimuths d)) 0) + s / 7 * nth j (variations (azimuths d)) 0 + 0
    = azimuth_of (azimuths d) m (azimuth_factor (line_of_sight d) ca (rice d)) s j).
  { intros s j Hj. unfold azimuth_angle, azimuth_of. rewrite La, Pk, ln_flip by auto.
    assert (F : azimuth_scale (line_of_sight d) (rice d) n = azimuth_factor (line_of_sight d) ca (rice d)).
    { unfold azimuth_scale, azimuth_factor, azimuth_los_factor. rewrite Ea. destruct (line_of_sight d); ring. }
    rewrite F. unfold Rdiv. ring. }
  assert (Z : forall s o j, (j < n)%nat -> nth j (signs (zeniths d)) 0 * zenith_angle (line_of_sight d) (rice d) s (zeniths d) (nth j (powers (zeniths d)) 0) + s / 7 * nth j (variations (zeniths d)) 0 + o
    = zenith_of (zeniths d) m (zenith_factor (line_of_sight d) cz (rice d)) s o j).
  { intros s o j Hj. unfold zenith_angle, zenith_of. rewrite Lz, Wp, Pk. rewrite <- ln_flip by auto.
    assert (F : zenith_scale (line_of_sight d) (rice d) n = zenith_factor (line_of_sight d) cz (rice d)).
    { unfold zenith_scale, zenith_factor, zenith_los_factor. rewrite Ez. destruct (line_of_sight d); ring. }
    rewrite F. unfold Rdiv. ring. }
  assert (C : forall los t a b i, (forall j, (j < n)%nat -> a j = b j) -> (i < n)%nat -> centred los t a i = centred los t b i).
  { intros los t a b i H Hi. unfold centred. rewrite (H i Hi), (H 0%nat ltac:(lia)). reflexivity. }
  assert (Len : forall s cs idx, length cs = n -> coupled n idx -> length (take (radians (map (spread_out s) cs)) idx) = n).
  { intros s cs idx L K. apply take_length; [|exact K]. unfold radians. rewrite !map_length. exact L. }
  assert (Lc : forall los angle s o t c, same_clusters n c -> length (centres los angle s o t c) = n).
  { intros los angle s o t c Hc. exact (proj1 (nth_centres los angle s o t c n 0 Hc Hn)). }
  do 5 eexists. split; [reflexivity|]. split; [apply Lt|]. split; [apply Lr|]. split; [apply Lt|]. split; [apply Lr|]. cbn [r_aoa r_zoa r_aod r_zod].
  unfold ray_azimuth, ray_zoa, ray_zod.
  split; [apply Len; [apply Lc; exact Wa | exact W1]|]. split; [apply Len; [apply Lc; exact Wz | exact W2]|].
  split; [apply Len; [apply Lc; exact Wa | exact W3]|]. split; [apply Len; [apply Lc; exact Wz | exact W4]|].
  intros i Hi. cbv zeta.
  split; [|split; [|split]].
  - rewrite <- (C _ _ _ _ i (A (asa d)) Hi).
    rewrite <- (proj2 (nth_centres (line_of_sight d) (azimuth_angle (line_of_sight d) (rice d) (asa d) (azimuths d)) (asa d) 0 (180 * ra / PI) _ n i Wa Hi)).
    apply coupled_row with (n := n); [apply Lc; exact Wa | exact W1 | exact Hi].
  - rewrite <- (C _ _ _ _ i (Z (zsa d) 0) Hi).
    rewrite <- (proj2 (nth_centres (line_of_sight d) (zenith_angle (line_of_sight d) (rice d) (zsa d) (zeniths d)) (zsa d) 0 (180 * rz / PI) _ n i Wz Hi)).
    apply coupled_row with (n := n); [apply Lc; exact Wz | exact W2 | exact Hi].
  - rewrite <- (C _ _ _ _ i (A (asd d)) Hi).
    rewrite <- (proj2 (nth_centres (line_of_sight d) (azimuth_angle (line_of_sight d) (rice d) (asd d) (azimuths d)) (asd d) 0 (180 * ta / PI) _ n i Wa Hi)).
    apply coupled_row with (n := n); [apply Lc; exact Wa | exact W3 | exact Hi].
  - rewrite <- (C _ _ _ _ i (Z (zsd d) (zod_offset d)) Hi).
    rewrite <- (proj2 (nth_centres (line_of_sight d) (zenith_angle (line_of_sight d) (rice d) (zsd d) (zeniths d)) (zsd d) (zod_offset d) (180 * tz / PI) _ n i Wz Hi)).
    apply coupled_row with (n := n); [apply Lc; exact Wz | exact W4 | exact Hi].
Qed.

(** The scale exists for every number of clusters. *)
Theorem C112_scale : forall n, exists ca cz, closest_row azimuth_scales n ca /\ closest_row zenith_scales n cz /\ 0 < ca /\ 0 < cz.
Proof.
  intros n. exists (table_scale azimuth_scales n), (table_scale zenith_scales n).
  assert (A : closest_row azimuth_scales n (table_scale azimuth_scales n)) by (apply table_scale_spec; discriminate).
  assert (Z : closest_row zenith_scales n (table_scale zenith_scales n)) by (apply table_scale_spec; discriminate).
  pose proof (azimuth_scale_range _ _ A). pose proof (zenith_scale_range _ _ Z). repeat split; try assumption; lra.
Qed.
Print Assumptions C112_centres.
Print Assumptions C112_scale.

Lemma facts : forall d n tx rx r, well_formed d n -> rigid tx -> rigid rx -> translation tx <> translation rx -> ray_angles d tx rx = Ok r ->
  exists m ca cz ta tz ra rz, largest (powers (azimuths d)) m /\ 0 < m /\ 779 / 1000 <= ca <= 1358 / 1000 /\ 889 / 1000 <= cz <= 1282 / 1000 /\
    looks tx rx ta tz /\ looks rx tx ra rz /\ 0 <= tz <= PI /\ 0 <= rz <= PI /\
    forall i, (i < n)%nat ->
      let los := line_of_sight d in let k := rice d in
      mean (nth i (r_aoa r) []) = deg (centred los (180 * ra / PI) (azimuth_of (azimuths d) m (azimuth_factor los ca k) (asa d)) i) /\
      mean (nth i (r_zoa r) []) = deg (centred los (180 * rz / PI) (zenith_of (zeniths d) m (zenith_factor los cz k) (zsa d) 0) i) /\
      mean (nth i (r_aod r) []) = deg (centred los (180 * ta / PI) (azimuth_of (azimuths d) m (azimuth_factor los ca k) (asd d)) i) /\
      mean (nth i (r_zod r) []) = deg (centred los (180 * tz / PI) (zenith_of (zeniths d) m (zenith_factor los cz k) (zsd d) (zod_offset d)) i).
Proof.
  intros d n tx rx r W Rt Rr N E. destruct (C112_scale n) as (ca & cz & Ca & Cz & _).
  assert (Np : powers (azimuths d) <> []) by (destruct W as [H (L & _)]; intros Q; rewrite Q in L; cbn in L; lia).
  pose proof (peak_largest _ Np) as M.
  destruct (C112_centres d n tx rx _ ca cz W Rt Rr N M Ca Cz) as (r' & ta & tz & ra & rz & E' & L1 & L2 & B1 & B2 & _ & _ & _ & _ & H).
  rewrite E in E'. inversion E'; subst r'. exists (peak (powers (azimuths d))), ca, cz, ta, tz, ra, rz.
  split; [exact M|]. split; [apply (wf_a _ _ W); apply M|]. split; [exact (azimuth_scale_range _ _ Ca)|]. split; [exact (zenith_scale_range _ _ Cz)|].
  repeat (split; [assumption|]). intros i Hi. destruct (H i Hi) as ((_ & H1 & _) & (_ & H2 & _) & (_ & H3 & _) & (_ & H4 & _)). cbv zeta. auto.
Qed.

(** With a line of sight, the rays of the first cluster leave and arrive on average exactly in its direction, in the coordinates of each device. *)
Theorem C112_first_cluster : forall d n tx rx r, well_formed d n -> rigid tx -> rigid rx -> translation tx <> translation rx ->
  line_of_sight d = true -> ray_angles d tx rx = Ok r ->
  looks tx rx (mean (nth 0 (r_aod r) [])) (mean (nth 0 (r_zod r) [])) /\ looks rx tx (mean (nth 0 (r_aoa r) [])) (mean (nth 0 (r_zoa r) [])).
Proof.
  intros d n tx rx r W Rt Rr N L E. destruct (facts d n tx rx r W Rt Rr N E) as (m & ca & cz & ta & tz & ra & rz & _ & _ & _ & _ & L1 & L2 & _ & _ & H).
  destruct (H 0%nat (wf_n _ _ W)) as (H1 & H2 & H3 & H4). rewrite H1, H2, H3, H4, L. unfold centred.
  split; (eapply looks_shift; [eassumption| |]); rewrite <- deg_back; f_equal; ring.
Qed.
(** Without, the strongest clusters do, up to their random variation and the scenario's offset of the zenith of departure. *)
Theorem C112_strongest_cluster : forall d n tx rx r i, well_formed d n -> rigid tx -> rigid rx -> translation tx <> translation rx ->
  line_of_sight d = false -> ray_angles d tx rx = Ok r -> (i < n)%nat -> largest (powers (azimuths d)) (nth i (powers (azimuths d)) 0) ->
  let xa := nth i (variations (azimuths d)) 0 in let xz := nth i (variations (zeniths d)) 0 in
  looks tx rx (mean (nth i (r_aod r) []) - deg (asd d / 7 * xa)) (mean (nth i (r_zod r) []) - deg (zsd d / 7 * xz + zod_offset d)) /\
  looks rx tx (mean (nth i (r_aoa r) []) - deg (asa d / 7 * xa)) (mean (nth i (r_zoa r) []) - deg (zsa d / 7 * xz)).
Proof.
  intros d n tx rx r i W Rt Rr N L E Hi M. destruct (facts d n tx rx r W Rt Rr N E) as (m & ca & cz & ta & tz & ra & rz & M' & Mp & Rc & Rz & L1 & L2 & _ & _ & H).
  pose proof (largest_unique _ _ _ M M') as Em. cbv zeta.
  destruct (H i Hi) as (H1 & H2 & H3 & H4). rewrite H1, H2, H3, H4, L. unfold centred, azimuth_of, zenith_of. rewrite (wf_p _ _ W), Em.
  replace (m / m) with 1 by (field; lra). rewrite ln_1, sqrt_0. unfold azimuth_factor, zenith_factor.
  split; (eapply looks_shift; [eassumption| |]); rewrite <- deg_back; unfold deg; field; pose proof PI_RGT_0; lra.
Qed.
Print Assumptions C112_first_cluster.
Print Assumptions C112_strongest_cluster.

(** Refuted: azimuths of departure and arrival are not independent. They share signs and variations, so that the centres of any two clusters differ
    at the transmitter by the same amount as at the receiver, times the ratio of the spreads; likewise for zeniths. *)
Theorem C112_independent_refuted : forall d n tx rx r i j, well_formed d n -> rigid tx -> rigid rx -> translation tx <> translation rx ->
  ray_angles d tx rx = Ok r -> (i < n)%nat -> (j < n)%nat ->
  asd d * (mean (nth i (r_aoa r) []) - mean (nth j (r_aoa r) [])) = asa d * (mean (nth i (r_aod r) []) - mean (nth j (r_aod r) [])) /\
  zsd d * (mean (nth i (r_zoa r) []) - mean (nth j (r_zoa r) [])) = zsa d * (mean (nth i (r_zod r) []) - mean (nth j (r_zod r) [])).
Proof.
  intros d n tx rx r i j W Rt Rr N E Hi Hj. destruct (facts d n tx rx r W Rt Rr N E) as (m & ca & cz & ta & tz & ra & rz & _ & _ & _ & _ & _ & _ & _ & _ & H).
  destruct (H i Hi) as (H1 & H2 & H3 & H4). destruct (H j Hj) as (K1 & K2 & K3 & K4). rewrite H1, H2, H3, H4, K1, K2, K3, K4.
  unfold centred, azimuth_of, zenith_of, deg. split; destruct (line_of_sight d); unfold Rdiv; ring.
Qed.
Print Assumptions C112_independent_refuted.

(** Weaker clusters are farther off, on the side of their sign, for Rice factors of at least -9.9 dB ... *)
Theorem C112_weaker : forall d n tx rx r i j, well_formed d n -> rigid tx -> rigid rx -> translation tx <> translation rx ->
  ray_angles d tx rx = Ok r -> (i < n)%nat -> (j < n)%nat -> (line_of_sight d = true -> -99 / 10 <= rice d) -> 0 < asa d -> 0 < zsa d ->
  nth i (signs (azimuths d)) 0 = 1 -> nth j (signs (azimuths d)) 0 = 1 -> nth i (signs (zeniths d)) 0 = 1 -> nth j (signs (zeniths d)) 0 = 1 ->
  nth i (variations (azimuths d)) 0 = nth j (variations (azimuths d)) 0 -> nth i (variations (zeniths d)) 0 = nth j (variations (zeniths d)) 0 ->
  nth j (powers (azimuths d)) 0 < nth i (powers (azimuths d)) 0 ->
  mean (nth i (r_aoa r) []) < mean (nth j (r_aoa r) []) /\ mean (nth i (r_zoa r) []) < mean (nth j (r_zoa r) []).
Proof.
  intros d n tx rx r i j W Rt Rr N E Hi Hj K Sa Sz A1 A2 Z1 Z2 V1 V2 P.
  destruct (facts d n tx rx r W Rt Rr N E) as (m & ca & cz & ta & tz & ra & rz & M & _ & Rc & Rz & _ & _ & _ & _ & H).
  destruct (H i Hi) as (H1 & H2 & _). destruct (H j Hj) as (K1 & K2 & _). rewrite H1, H2, K1, K2.
  assert (Pj : 0 < nth j (powers (azimuths d)) 0) by (apply (wf_a _ _ W), nth_In; rewrite (proj1 (wf_a _ _ W)); exact Hj).
  assert (Mi : nth i (powers (azimuths d)) 0 <= m) by (apply M, nth_In; rewrite (proj1 (wf_a _ _ W)); exact Hi).
  destruct (ln_ratio m _ _ Pj P Mi) as [L0 L1].
  assert (Fa : 0 < azimuth_factor (line_of_sight d) ca (rice d)).
  { unfold azimuth_factor. destruct (line_of_sight d); [|lra]. apply Rmult_lt_0_compat; [lra|]. apply azimuth_factor_pos. specialize (K eq_refl). lra. }
  assert (Fz : 0 < zenith_factor (line_of_sight d) cz (rice d)).
  { unfold zenith_factor. destruct (line_of_sight d); [|lra]. apply Rmult_lt_0_compat; [lra|]. apply zenith_factor_pos. exact (K eq_refl). }
  assert (Qa : azimuth_of (azimuths d) m (azimuth_factor (line_of_sight d) ca (rice d)) (asa d) i < azimuth_of (azimuths d) m (azimuth_factor (line_of_sight d) ca (rice d)) (asa d) j).
  { unfold azimuth_of. rewrite A1, A2, V1. apply Rplus_lt_compat_r. rewrite !Rmult_1_l. unfold Rdiv at 1 4. apply Rmult_lt_compat_r; [apply Rinv_0_lt_compat; exact Fa|].
    apply Rmult_lt_compat_l; [lra|]. apply sqrt_lt_1; lra. }
  assert (Qz : zenith_of (zeniths d) m (zenith_factor (line_of_sight d) cz (rice d)) (zsa d) 0 i < zenith_of (zeniths d) m (zenith_factor (line_of_sight d) cz (rice d)) (zsa d) 0 j).
  { unfold zenith_of. rewrite Z1, Z2, V2, (wf_p _ _ W). do 2 apply Rplus_lt_compat_r. rewrite !Rmult_1_l. apply Rmult_lt_compat_r; [apply Rinv_0_lt_compat; exact Fz|].
    apply Rmult_lt_compat_l; [lra | exact L1]. }
  unfold centred. split; apply deg_lt; destruct (line_of_sight d); lra.
Qed.
(** ... refuted below: at -10 dB the zeniths of all clusters flip to the other side. *)
Theorem C112_rice_refuted : forall d n tx rx r i j, well_formed d n -> rigid tx -> rigid rx -> translation tx <> translation rx ->
  ray_angles d tx rx = Ok r -> (i < n)%nat -> (j < n)%nat -> line_of_sight d = true -> rice d = -10 -> 0 < zsa d ->
  nth i (signs (zeniths d)) 0 = 1 -> nth j (signs (zeniths d)) 0 = 1 -> nth i (variations (zeniths d)) 0 = nth j (variations (zeniths d)) 0 ->
  nth j (powers (azimuths d)) 0 < nth i (powers (azimuths d)) 0 ->
  mean (nth j (r_zoa r) []) < mean (nth i (r_zoa r) []).
Proof.
  intros d n tx rx r i j W Rt Rr N E Hi Hj L K Sz Z1 Z2 V2 P.
  destruct (facts d n tx rx r W Rt Rr N E) as (m & ca & cz & ta & tz & ra & rz & M & _ & Rc & Rz & _ & _ & _ & _ & H).
  destruct (H i Hi) as (_ & H2 & _). destruct (H j Hj) as (_ & K2 & _). rewrite H2, K2.
  assert (Pj : 0 < nth j (powers (azimuths d)) 0) by (apply (wf_a _ _ W), nth_In; rewrite (proj1 (wf_a _ _ W)); exact Hj).
  assert (Mi : nth i (powers (azimuths d)) 0 <= m) by (apply M, nth_In; rewrite (proj1 (wf_a _ _ W)); exact Hi).
  destruct (ln_ratio m _ _ Pj P Mi) as [L0 L1].
  assert (Fz : zenith_factor (line_of_sight d) cz (rice d) < 0) by (unfold zenith_factor; rewrite L, K; lra).
  assert (Qz : zenith_of (zeniths d) m (zenith_factor (line_of_sight d) cz (rice d)) (zsa d) 0 j < zenith_of (zeniths d) m (zenith_factor (line_of_sight d) cz (rice d)) (zsa d) 0 i).
  { unfold zenith_of. rewrite Z1, Z2, V2, (wf_p _ _ W). do 2 apply Rplus_lt_compat_r. rewrite !Rmult_1_l.
    assert (I : / zenith_factor (line_of_sight d) cz (rice d) < 0) by (apply Rinv_lt_0_compat; exact Fz).
    unfold Rdiv. rewrite (Rmult_comm _ (/ _)), (Rmult_comm (zsa d * _) (/ _)). apply Rmult_lt_gt_compat_neg_l; [exact I|]. apply Rmult_lt_compat_l; [exact Sz | exact L1]. }
  unfold centred. rewrite L. rewrite L in Qz. apply deg_lt. lra.
Qed.
Print Assumptions C112_weaker.
Print Assumptions C112_rice_refuted.

(** Spreads are positive and capped. *)
Theorem C112_spreads : forall mean std x, 0 < azimuth_spread mean std x <= 104 /\ 0 < zenith_spread mean std x <= 52 /\
  (Rpower 10 (mean + std * x) <= 52 -> azimuth_spread mean std x = Rpower 10 (mean + std * x) /\ zenith_spread mean std x = Rpower 10 (mean + std * x)).
Proof.
  intros mu sd x. pose proof (exp_pos ((mu + sd * x) * ln 10)) as P. fold (Rpower 10 (mu + sd * x)) in P. unfold azimuth_spread, zenith_spread.
  repeat split; try apply Rmin_r; try (unfold Rmin; destruct Rle_dec; lra); intros; apply Rmin_left; lra.
Qed.
Print Assumptions C112_spreads.

(** A link of two clusters, 25 dB apart *)
Definition pair : list R := [1; Rpower 10 (- 25 / 10)].
Definition plus : clusters := mkClusters pair [1; 1] [0; 0].
Definition example (los : bool) (k : R) : draws :=
  mkDraws los k 10 20 52 5 3 4 5 (1 / 2) 0 plus plus [seq 0 20; seq 0 20] [seq 0 20; seq 0 20] [seq 0 20; seq 0 20] [seq 0 20; seq 0 20].
Lemma example_well_formed los k : well_formed (example los k) 2.
Proof.
  assert (S : same_clusters 2 plus).
  { repeat split. cbn. intros p [<-|[<-|[]]]; [lra | apply exp_pos]. }
  assert (C : coupled 2 [seq 0 20; seq 0 20]) by (split; [reflexivity|]; intros r [<-|[<-|[]]]; apply Permutation_refl).
  constructor; try exact C; try exact S; [lia | reflexivity].
Qed.
(** A half turn about the vertical axis *)
Definition half_turn : mat := M (-1) 0 0 0 (-1) 0 0 0 1.
Lemma half_turn_proper : proper half_turn.
Proof. split; [unfold mm, transpose, half_turn, eye; cbn; f_equal; ring | unfold det, half_turn; cbn; ring]. Qed.
Lemma eye_proper : proper eye.
Proof. split; [unfold mm, transpose, eye; cbn; f_equal; ring | unfold det, eye; cbn; ring]. Qed.
Definition east : transformation := mkT eye (V 7 0 0).
Definition turned : transformation := mkT half_turn (V 0 0 0).
Lemma example_defined los k : exists r, ray_angles (example los k) turned east = Ok r.
Proof.
  destruct (C112_scale 2) as (ca & cz & Ca & Cz & _).
  destruct (C112_centres (example los k) 2 turned east (peak pair) ca cz (example_well_formed los k) half_turn_proper eye_proper) as (r & _ & _ & _ & _ & E & _); eauto.
  - intros Q. inversion Q. lra.
  - apply peak_largest. discriminate.
Qed.
Example C112_met : forall los k, exists r, well_formed (example los k) 2 /\ rigid turned /\ rigid east /\ translation turned <> translation east /\
  ray_angles (example los k) turned east = Ok r /\ nth 1 (powers (azimuths (example los k))) 0 < nth 0 (powers (azimuths (example los k))) 0.
Proof.
  intros los k. destruct (example_defined los k) as [r E]. exists r. split; [apply example_well_formed|]. split; [exact half_turn_proper|]. split; [exact eye_proper|].
  split; [intros Q; inversion Q; lra|]. split; [exact E|]. cbn. rewrite <- (Rpower_O 10) by lra. apply Rpower_lt; lra.
Qed.

(** Devices that are not rotated send and receive the first cluster in the direction of the line of sight ... *)
Theorem C112_frames : forall d n tx rx r, well_formed d n -> rigid tx -> rigid rx -> translation tx <> translation rx -> line_of_sight d = true ->
  ray_angles d tx rx = Ok r -> rotation tx = eye ->
  From_Spherical (mean (nth 0 (r_aod r) [])) (mean (nth 0 (r_zod r) [])) =
  vscale (/ norm (vsub (translation rx) (translation tx))) (vsub (translation rx) (translation tx)).
Proof.
  intros d n tx rx r W Rt Rr N L E I. destruct (C112_first_cluster d n tx rx r W Rt Rr N L E) as [H _]. unfold looks in H. rewrite I, mv_eye in H. exact H.
Qed.
(** ... refuted for rotated ones: the angles are those of the device's coordinates but antennas are evaluated in those of the scene (C110). A
    transmitter turned by 180 degrees sends its first cluster away from the receiver. *)
Theorem C112_frames_refuted : forall k, exists r, ray_angles (example true k) turned east = Ok r /\
  vscale (/ norm (vsub (translation east) (translation turned))) (vsub (translation east) (translation turned)) = V 1 0 0 /\
  From_Spherical (mean (nth 0 (r_aod r) [])) (mean (nth 0 (r_zod r) [])) = V (-1) 0 0.
Proof.
  intros k. destruct (example_defined true k) as [r E]. exists r. split; [exact E|].
  destruct (C112_first_cluster (example true k) 2 turned east r (example_well_formed _ _) half_turn_proper eye_proper ltac:(intros Q; inversion Q; lra) eq_refl E) as [H _].
  assert (U : vscale (/ norm (vsub (translation east) (translation turned))) (vsub (translation east) (translation turned)) = V 1 0 0).
  { assert (Nm : norm (vsub (translation east) (translation turned)) = 7).
    { unfold norm, dot, vsub, east, turned. cbn [translation vx vy vz]. replace ((7 - 0) * (7 - 0) + (0 - 0) * (0 - 0) + (0 - 0) * (0 - 0)) with (7 ^ 2) by ring. apply sqrt_pow2. lra. }
    rewrite Nm. unfold vscale, vsub, east, turned. cbn [translation vx vy vz]. f_equal; field. }
  split; [exact U|]. unfold looks in H. rewrite U in H. set (v := From_Spherical _ _) in *. destruct v as [a b c].
  pose proof (f_equal vx H) as Hx. pose proof (f_equal vy H) as Hy. pose proof (f_equal vz H) as Hz.
  unfold mv, turned, half_turn in Hx, Hy, Hz. cbn [rotation vx vy vz m00 m01 m02 m10 m11 m12 m20 m21 m22] in Hx, Hy, Hz. f_equal; lra.
Qed.
Print Assumptions C112_frames.
Print Assumptions C112_frames_refuted.

(** Refuted: zeniths are not wrapped to the half circle. A cluster 25 dB below the strongest may arrive on average from a zenith of more than 180
    degrees wherever the devices are; such a direction is the one the standard wraps it to, with the horizontal part reversed. *)
Theorem C112_wrap_refuted : (forall tx rx r k, rigid tx -> rigid rx -> translation tx <> translation rx -> ray_angles (example false k) tx rx = Ok r ->
    PI < mean (nth 1 (r_zoa r) [])) /\
  (forall a z, From_Spherical a z = V (- vx (From_Spherical a (2 * PI - z))) (- vy (From_Spherical a (2 * PI - z))) (vz (From_Spherical a (2 * PI - z)))).
Proof.
  split.
  - intros tx rx r k Rt Rr N E. destruct (facts (example false k) 2 tx rx r (example_well_formed _ _) Rt Rr N E) as (m & ca & cz & ta & tz & ra & rz & M & _ & _ & Rz & _ & _ & _ & B & H).
    destruct (H 1%nat ltac:(lia)) as (_ & H2 & _). rewrite H2. cbn [line_of_sight example]. unfold centred, zenith_of, zenith_factor. cbn [zeniths example signs powers variations plus nth pair zsa].
    assert (Em : m = 1).
    { apply (largest_unique pair); [exact M|]. split; [left; reflexivity|]. intros x [<-|[<-|[]]]; [lra|]. rewrite <- (Rpower_O 10) by lra. apply Rle_Rpower; lra. }
    subst m. replace (1 / Rpower 10 (- 25 / 10)) with (Rpower 10 (25 / 10)) by (replace (- 25 / 10) with (- (25 / 10)) by field; rewrite Rpower_Ropp; field; apply Rgt_not_eq, exp_pos).
    unfold Rpower at 1. rewrite ln_exp. pose proof ln10_ge2 as L10.
    assert (D1 : 180 < 1 * (52 * (25 / 10 * ln 10) / cz) + 52 / 7 * 0 + 0).
    { assert (Hc : 0 < cz) by lra. replace (1 * (52 * (25 / 10 * ln 10) / cz) + 52 / 7 * 0 + 0) with (130 * ln 10 / cz) by (field; lra).
      apply Rmult_lt_reg_r with cz; [lra|]. unfold Rdiv. rewrite Rmult_assoc, Rinv_l by lra. lra. }
    apply Rle_lt_trans with (deg 180); [right; unfold deg; field | apply deg_lt].
    assert (0 <= 180 * rz / PI). { apply Rmult_le_pos; [lra | left; apply Rinv_0_lt_compat, PI_RGT_0]. }
    lra.
  - intros a z. unfold From_Spherical. cbn [vx vy vz].
    replace (2 * PI - z) with (- z + 2 * INR 1 * PI) by (cbn; ring). rewrite sin_period, cos_period, sin_neg, cos_neg. f_equal; ring.
Qed.
Print Assumptions C112_wrap_refuted.
