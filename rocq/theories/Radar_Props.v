(** C36, C37: radar point detectors. *)
From Coq Require Import Reals List Arith Bool Lia Lra.
From Verif Require Import Base BaseLemmas Radar_Model Radar_Spec Radar_Proofs.
Import ListNotations.
Open Scope R_scope.

(** *** Cubes and points *)

(** Cubes are created exactly if the bins match the data and the carrier is not negative; bins
    of single angles and Doppler cells may be left out, range bins always. *)
Theorem C36_cube_creation : forall sa sd sr d a v r fc c, make_cube sa sd sr d a v r fc = Ok c ->
  na c = sa /\ nd c = sd /\ nr c = sr /\ data c = d /\ length (angle_bins c) = sa /\ length (doppler_bins c) = sd /\
  length (range_bins c) = sr /\ carrier_frequency c = fc /\ 0 <= fc /\
  (forall l, a = Some l -> angle_bins c = l) /\ (forall l, v = Some l -> doppler_bins c = l) /\
  (forall l, r = Some l -> range_bins c = l) /\
  (r = None -> forall k, (k < sr)%nat -> nth_error (range_bins c) k = Some (INR k)).
Proof.
  intros sa sd sr d a v r fc c H. unfold make_cube in H.
  apply bind_ok in H. destruct H as [la [Ha H]]. apply bind_ok in H. destruct H as [lv [Hv H]].
  set (lr := match r with Some l => l | None => map INR (seq 0 sr) end) in *.
  destruct (Nat.eqb_spec sa (length la)) as [Ea|]; [|discriminate]. cbn [negb] in H.
  destruct (Nat.eqb_spec sd (length lv)) as [Ed|]; [|discriminate]. cbn [negb] in H.
  destruct (Nat.eqb_spec sr (length lr)) as [Er|]; [|discriminate]. cbn [negb] in H.
  destruct (Rltb fc 0) eqn:Ef; [discriminate|]. apply Rltb_false in Ef. injection H as <-. cbn [na nd nr data angle_bins doppler_bins range_bins carrier_frequency].
  do 4 (split; [reflexivity|]). split; [auto|]. split; [auto|]. split; [auto|]. split; [reflexivity|]. split; [exact Ef|].
  split; [intros l ->; injection Ha; auto|]. split; [intros l ->; injection Hv; auto|]. split.
  - intros l ->. reflexivity.
  - intros -> k Hk. unfold lr. rewrite nth_error_map'.
    assert (E : nth_error (seq 0 sr) k = Some k).
    { rewrite (nth_error_nth' _ 0%nat) by (rewrite seq_length; exact Hk). rewrite seq_nth by exact Hk. reflexivity. }
    rewrite E. reflexivity.
Qed.
Print Assumptions C36_cube_creation.
Theorem C36_cube_mismatch : forall sa sd sr d a v r fc,
  length a <> sa \/ length v <> sd \/ length r <> sr \/ fc < 0 ->
  make_cube sa sd sr d (Some a) (Some v) (Some r) fc = Raise ValueError.
Proof.
  intros sa sd sr d a v r fc H. unfold make_cube. cbn [bind].
  destruct (Nat.eqb_spec sa (length a)); [|reflexivity]. cbn [negb]. destruct (Nat.eqb_spec sd (length v)); [|reflexivity]. cbn [negb].
  destruct (Nat.eqb_spec sr (length r)); [|reflexivity]. cbn [negb]. destruct (Rltb fc 0) eqn:E; [reflexivity|]. apply Rltb_false in E.
  destruct H as [H|[H|[H|H]]]; try congruence. lra.
Qed.
Print Assumptions C36_cube_mismatch.

Lemma direction_unit az ze : norm2 (direction az ze) = 1.
Proof.
  unfold norm2, direction. pose proof (sin2_cos2 az) as Ha. pose proof (sin2_cos2 ze) as Hz. unfold Rsqr in *.
  transitivity ((sin az * sin az + cos az * cos az) * (sin ze * sin ze) + cos ze * cos ze); [ring|]. rewrite Ha. lra.
Qed.
Lemma norm2_scale k v : norm2 (vscale k v) = k * k * norm2 v.
Proof. destruct v as [[x y] z]. unfold norm2, vscale. ring. Qed.

(** A reported point lies at the distance of its cell's range and moves radially with the
    velocity of its cell's Doppler shift. *)
Theorem C36_point_geometry : forall c a d r p, describes c (a, d, r) p ->
  exists range doppler, nth_error (range_bins c) r = Some range /\ nth_error (doppler_bins c) d = Some doppler /\
    norm2 (p_position p) = range * range /\
    norm2 (p_velocity p) = Rsqr (doppler * speed_of_light / carrier_frequency c) /\
    vscale (doppler * speed_of_light / carrier_frequency c) (p_position p) = vscale range (p_velocity p).
Proof.
  intros c a d r p [az [ze [rg [dp [E1 [E2 [E3 [E4 [E5 E6]]]]]]]]]. exists rg, dp. split; [exact E2|]. split; [exact E3|].
  rewrite E4, E5, !norm2_scale, direction_unit. split; [ring|]. split; [unfold Rsqr; ring|].
  destruct (direction az ze) as [[x y] z]. unfold vscale. f_equal; [f_equal|]; ring.
Qed.
Print Assumptions C36_point_geometry.

(** *** Threshold detector *)

(** The compared value of a cell is its power; with normalisation, in cubes with a positive cell,
    it is its excess over the weakest cell relative to the strongest one. *)
Definition compared (t : threshold) (c : cube) (mx mn : R) (i : nat * nat * nat) (x : R) : Prop :=
  (normalize t = true -> 0 < mx -> x * mx = at_cell c i - mn) /\
  (normalize t = false \/ mx <= 0 -> x = at_cell c i).
Lemma compared_level t c mx mn i x : compared t c mx mn i x <-> x = level t c mx mn i.
Proof.
  unfold compared, level. destruct (normalize t); cbn [andb].
  - destruct (Rltb 0 mx) eqn:E; [apply Rltb_true in E|apply Rltb_false in E]. split.
    + intros [H _]. specialize (H eq_refl E). rewrite <- H. field. lra.
    + intros ->. split; [intros _ _; field; lra|]. intros [K|K]; [discriminate|lra].
    + split; [intros [_ H]; apply H; auto|]. intros ->. split; [lra|auto].
  - split; [intros [_ H]; apply H; auto|]. intros ->. split; [discriminate|auto].
Qed.

(** In cubes without negative power, exactly the cells that reach the threshold -- with peak
    detection, those not weaker than their neighbours -- are reported, each once, at the position
    and velocity of their bins and with their power. *)
Theorem C36_threshold_detector : forall m nrm pk t c mx mn, make_threshold m nrm pk = Ok t ->
  wf c -> ranges_ok c -> nonnegative c -> is_max c mx -> is_min c mn ->
  exists found k, detect_threshold t c = Ok k /\ Forall2 (describes c) found (points k) /\ NoDup found /\
    forall i, In i found <->
      in_cube c i /\ (exists x, compared t c mx mn i x /\ m <= x) /\
      (pk = true -> forall j, in_cube c j -> adjacent i j -> at_cell c j <= at_cell c i).
Proof.
  intros m nrm pk t c mx mn Ht W R NN Hm Hn. unfold make_threshold in Ht. destruct (Rleb m 0) eqn:Em; [discriminate|]. apply Rleb_false in Em.
  injection Ht as <-. set (t := mkThr m nrm pk).
  destruct (threshold_cells_spec t c mx mn Hm Hn) as [found [E [ND Hin]]].
  assert (F : Forall (fun i => in_cube c i /\ 0 < at_cell c i) found).
  { apply Forall_forall. intros i Hi. apply Hin in Hi. destruct Hi as [Hi [Hl _]]. split; [exact Hi|].
    cbn [min_power t] in Hl. unfold level in Hl. destruct (normalize t && Rltb 0 mx) eqn:En; [|lra].
    apply andb_true_iff in En. destruct En as [_ En]. apply Rltb_true in En.
    destruct Hn as [[j [Hj Ej]] _]. pose proof (NN j Hj) as Nj. rewrite Ej in Nj.
    assert (0 < at_cell c i - mn); [|lra]. apply Rmult_lt_reg_r with (/ mx); [apply Rinv_0_lt_compat, En|].
    unfold Rdiv in Hl. lra. }
  destruct (to_cloud_spec c found W R F) as [k [Ek Fk]]. exists found, k. unfold detect_threshold. rewrite E. cbn [bind].
  split; [exact Ek|]. split; [exact Fk|]. split; [exact ND|]. intro i. rewrite Hin. cbn [min_power peak_detection t].
  assert (EE : (exists x, compared t c mx mn i x /\ m <= x) <-> m <= level t c mx mn i).
  { split; [intros [x [Hx Hle]]; apply compared_level in Hx; subst; exact Hle|]. intro H. eexists. split; [apply compared_level; reflexivity|exact H]. }
  rewrite EE. reflexivity.
Qed.
Print Assumptions C36_threshold_detector.

(** Peak detection never loses the strongest cell: something is found with it exactly if
    something is found without it. *)
Theorem C36_peaks_keep_the_strongest : forall m nrm t1 t2 c mx f1 f2, make_threshold m nrm true = Ok t1 ->
  make_threshold m nrm false = Ok t2 -> is_max c mx ->
  threshold_cells t1 c = Ok f1 -> threshold_cells t2 c = Ok f2 ->
  incl f1 f2 /\ (f2 <> [] -> forall i, in_cube c i -> at_cell c i = mx -> In i f1).
Proof.
  intros m nrm t1 t2 c mx f1 f2 H1 H2 Hm E1 E2. unfold make_threshold in *. destruct (Rleb m 0); [discriminate|].
  injection H1 as <-. injection H2 as <-.
  assert (N : cells c <> []) by (destruct Hm as [[i [Hi _]] _]; apply in_cells in Hi; destruct (cells c); [destruct Hi|discriminate]).
  destruct (list_min_some (map (at_cell c) (cells c))) as [mn En]; [destruct (cells c); [contradiction|discriminate]|]. apply cells_min in En.
  destruct (threshold_cells_spec (mkThr m nrm true) c mx mn Hm En) as [f1' [E1' [_ I1]]].
  destruct (threshold_cells_spec (mkThr m nrm false) c mx mn Hm En) as [f2' [E2' [_ I2]]].
  rewrite E1 in E1'. injection E1' as <-. rewrite E2 in E2'. injection E2' as <-. split.
  - intros i Hi. apply I2. apply I1 in Hi. destruct Hi as [Hi [Hl _]]. split; [exact Hi|]. split; [exact Hl|]. discriminate.
  - intros NE i Hi Ei. apply I1. split; [exact Hi|]. split.
    + destruct f2 as [|j f2]; [contradiction|]. destruct (proj1 (I2 j) (or_introl eq_refl)) as [Hj [Hl _]].
      cbn [min_power] in *. apply Rle_trans with (level (mkThr m nrm false) c mx mn j); [exact Hl|].
      change (level (mkThr m nrm true) c mx mn i) with (level (mkThr m nrm false) c mx mn i).
      apply level_mono. rewrite Ei. apply Hm, Hj.
    + intros _ j Hj _. rewrite Ei. apply Hm, Hj.
Qed.
Print Assumptions C36_peaks_keep_the_strongest.

(** A higher threshold finds fewer cells. *)
Theorem C36_threshold_monotone : forall m m' nrm pk t t' c f f', m <= m' ->
  make_threshold m nrm pk = Ok t -> make_threshold m' nrm pk = Ok t' ->
  threshold_cells t c = Ok f -> threshold_cells t' c = Ok f' -> incl f' f.
Proof.
  intros m m' nrm pk t t' c f f' Hm H1 H2 E1 E2. unfold make_threshold in *. destruct (Rleb m 0); [discriminate|]. destruct (Rleb m' 0); [discriminate|].
  injection H1 as <-. injection H2 as <-. unfold threshold_cells in *.
  apply bind_ok in E1. destruct E1 as [v [Ev E1]]. apply bind_ok in E2. destruct E2 as [v' [Ev' E2]].
  assert (v = v') by (unfold cube_data in *; cbn [normalize] in *; congruence). subst v'.
  injection E1 as <-. injection E2 as <-. intros i Hi. apply filter_In in Hi. destruct Hi as [Hi Hc]. apply filter_In. split; [exact Hi|].
  cbn [peak_detection min_power] in *. apply andb_true_iff in Hc. destruct Hc as [Hp Hl]. apply Rleb_true in Hl. rewrite Hp. cbn [andb]. apply Rleb_true. lra.
Qed.
Print Assumptions C36_threshold_monotone.

(** With normalisation the gain of the receiver does not matter. *)
Lemma is_max_scale k c m : 0 < k -> is_max c m -> is_max (scale_cube k c) (k * m).
Proof.
  intros K [[i [Hi E]] H]. split.
  - exists i. destruct i as [[a d] r]. split; [exact Hi|]. cbn in *. rewrite E. reflexivity.
  - intros [[a d] r] Hj. specialize (H (a, d, r) Hj). cbn in *. apply Rmult_le_compat_l; lra.
Qed.
Lemma is_min_scale k c m : 0 < k -> is_min c m -> is_min (scale_cube k c) (k * m).
Proof.
  intros K [[i [Hi E]] H]. split.
  - exists i. destruct i as [[a d] r]. split; [exact Hi|]. cbn in *. rewrite E. reflexivity.
  - intros [[a d] r] Hj. specialize (H (a, d, r) Hj). cbn in *. apply Rmult_le_compat_l; lra.
Qed.
Theorem C36_normalised_detection_ignores_gain : forall m pk t c mx k f f', make_threshold m true pk = Ok t -> is_max c mx -> 0 < mx ->
  0 < k -> threshold_cells t c = Ok f -> threshold_cells t (scale_cube k c) = Ok f' -> forall i, In i f <-> In i f'.
Proof.
  intros m pk t c mx k f f' Ht Hm Pm Pk E E' i. unfold make_threshold in Ht. destruct (Rleb m 0); [discriminate|]. injection Ht as <-.
  assert (N : cells c <> []) by (destruct Hm as [[j [Hj _]] _]; apply in_cells in Hj; destruct (cells c); [destruct Hj|discriminate]).
  destruct (list_min_some (map (at_cell c) (cells c))) as [mn En]; [destruct (cells c); [contradiction|discriminate]|]. apply cells_min in En.
  destruct (threshold_cells_spec (mkThr m true pk) c mx mn Hm En) as [g [Eg [_ I]]]. rewrite E in Eg. injection Eg as <-.
  destruct (threshold_cells_spec (mkThr m true pk) (scale_cube k c) (k * mx) (k * mn) (is_max_scale k c mx Pk Hm) (is_min_scale k c mn Pk En)) as [g [Eg [_ I']]].
  rewrite E' in Eg. injection Eg as <-. rewrite I, I'. cbn [min_power peak_detection].
  assert (C : forall j, in_cube (scale_cube k c) j <-> in_cube c j) by (intros [[? ?] ?]; reflexivity).
  assert (A : forall j, at_cell (scale_cube k c) j = k * at_cell c j) by (intros [[? ?] ?]; reflexivity).
  assert (L : level (mkThr m true pk) (scale_cube k c) (k * mx) (k * mn) i = level (mkThr m true pk) c mx mn i).
  { unfold level. cbn [normalize andb]. assert (P1 : Rltb 0 mx = true) by (apply Rltb_true, Pm).
    assert (P2 : Rltb 0 (k * mx) = true) by (apply Rltb_true, Rmult_lt_0_compat; assumption). rewrite P1, P2, A. field. lra. }
  rewrite L, (C i). split; intros [H1 [H2 H3]]; (split; [exact H1|]; split; [exact H2|]); intros P j Hj Hadj; specialize (H3 P j).
  - rewrite !A. apply Rmult_le_compat_l; [lra|]. apply H3; [apply C, Hj|exact Hadj].
  - rewrite !A in H3. apply C in Hj. specialize (H3 Hj Hadj). apply Rmult_le_reg_l in H3; lra.
Qed.
Print Assumptions C36_normalised_detection_ignores_gain.

(** Normalised values are relative to the strongest cell after subtracting the weakest one, so
    the strongest cell does not in general compare as one: in flat cubes nothing is ever found. *)
Theorem C36_flat_cubes_find_nothing : forall m pk t c mx, make_threshold m true pk = Ok t -> is_max c mx -> is_min c mx -> 0 < mx ->
  threshold_cells t c = Ok [].
Proof.
  intros m pk t c mx Ht Hm Hn P. unfold make_threshold in Ht. destruct (Rleb m 0) eqn:Em; [discriminate|]. apply Rleb_false in Em. injection Ht as <-.
  destruct (threshold_cells_spec (mkThr m true pk) c mx mx Hm Hn) as [f [E [_ I]]]. rewrite E. f_equal. destruct f as [|i f]; [reflexivity|]. exfalso.
  destruct (proj1 (I i) (or_introl eq_refl)) as [Hi [Hl _]]. cbn [min_power] in Hl. unfold level in Hl. cbn [normalize andb] in Hl.
  assert (P1 : Rltb 0 mx = true) by (apply Rltb_true, P). rewrite P1 in Hl. pose proof (proj2 Hm i Hi).
  assert ((at_cell c i - mx) / mx <= 0); [|lra]. unfold Rdiv. assert (0 < / mx) by (apply Rinv_0_lt_compat, P).
  replace 0 with (0 * / mx) by ring. apply Rmult_le_compat_r; lra.
Qed.
Print Assumptions C36_flat_cubes_find_nothing.

(** In cubes with negative entries a cell that reaches the normalised threshold may have no
    positive power; detection then fails as a whole. *)
Definition line3 (x y z : R) : cube := mkCube 1 1 3 (fun _ _ r => match r with 0%nat => x | 1%nat => y | _ => z end) [(0, PI / 2)] [0] [0; 1; 2] 1.
Lemma line3_max x y z m : (m = x \/ m = y \/ m = z) -> x <= m -> y <= m -> z <= m -> is_max (line3 x y z) m.
Proof.
  intros Hm Hx Hy Hz. split.
  - destruct Hm as [->|[->| ->]]; [exists (0, 0, 0)%nat|exists (0, 0, 1)%nat|exists (0, 0, 2)%nat]; cbn; (split; [lia|reflexivity]).
  - intros [[a d] r] [_ [_ Hr]]. cbn in *. destruct r as [|[|r]]; assumption.
Qed.
Lemma line3_min x y z m : (m = x \/ m = y \/ m = z) -> m <= x -> m <= y -> m <= z -> is_min (line3 x y z) m.
Proof.
  intros Hm Hx Hy Hz. split.
  - destruct Hm as [->|[->| ->]]; [exists (0, 0, 0)%nat|exists (0, 0, 1)%nat|exists (0, 0, 2)%nat]; cbn; (split; [lia|reflexivity]).
  - intros [[a d] r] [_ [_ Hr]]. cbn in *. destruct r as [|[|r]]; assumption.
Qed.
Theorem C36_negative_cells_refuted : ~ forall t c mx, wf c -> ranges_ok c -> is_max c mx -> 0 < mx ->
  exists k, detect_threshold t c = Ok k.
Proof.
  intro H. specialize (H (mkThr (1 / 2) true false) (line3 (-1) 0 1) 1).
  assert (W : wf (line3 (-1) 0 1)) by (unfold wf; cbn; repeat split; lra).
  assert (R : ranges_ok (line3 (-1) 0 1)) by (exists 1; cbn; split; [auto|lra]).
  assert (M : is_max (line3 (-1) 0 1) 1) by (apply line3_max; try lra; auto).
  assert (N : is_min (line3 (-1) 0 1) (-1)) by (apply line3_min; try lra; auto).
  destruct (H W R M ltac:(lra)) as [k E]. unfold detect_threshold, threshold_cells, cube_data in E.
  rewrite (cells_max_of _ _ M), (cells_min_of _ _ N) in E. cbn [bind normalize] in E.
  assert (P : Rltb 0 1 = true) by (apply Rltb_true; lra). rewrite P in E. cbn [andb] in E.
  change (cells (line3 (-1) 0 1)) with [(0, 0, 0); (0, 0, 1); (0, 0, 2)]%nat in E.
  cbn [filter peak_detection negb orb min_power at_cell line3 data andb] in E.
  assert (L0 : Rleb (1 / 2) ((-1 - -1) / 1) = false) by (apply Rleb_false; lra).
  assert (L1 : Rleb (1 / 2) ((0 - -1) / 1) = true) by (apply Rleb_true; lra).
  assert (L2 : Rleb (1 / 2) ((1 - -1) / 1) = true) by (apply Rleb_true; lra).
  rewrite L0, L1, L2 in E. unfold to_cloud in E. apply bind_ok in E. destruct E as [m [_ E]].
  cbn [fold_left] in E. destruct (make_cloud m) as [k0|e] eqn:Ek; [|discriminate].
  assert (E1 : add_cell (line3 (-1) 0 1) (Ok k0) (0, 0, 1)%nat = Raise ValueError).
  { unfold add_cell, velocity_bins. cbn [bind carrier_frequency line3]. assert (K : Rleb 1 0 = false) by (apply Rleb_false; lra). rewrite K. cbn [bind].
    cbn [nth angle_bins line3 from_spherical]. unfold from_spherical, make_point. cbn [at_cell data line3].
    assert (K' : Rleb 0 0 = true) by (apply Rleb_true; lra). rewrite K'. reflexivity. }
  rewrite E1 in E. discriminate.
Qed.
Print Assumptions C36_negative_cells_refuted.

Example C36_threshold_hypotheses_met : let c := line3 1 4 2 in
  wf c /\ ranges_ok c /\ nonnegative c /\ is_max c 4 /\ is_min c 1 /\ exists t, make_threshold (1 / 2) true true = Ok t.
Proof.
  cbv zeta. split; [unfold wf; cbn; repeat split; lra|]. split; [exists 1; cbn; split; [auto|lra]|]. split.
  - intros [[a d] r] _. cbn. destruct r as [|[|r]]; lra.
  - split; [apply line3_max; try lra; auto|]. split; [apply line3_min; try lra; auto|].
    unfold make_threshold. assert (E : Rleb (1 / 2) 0 = false) by (apply Rleb_false; lra). rewrite E. eexists. reflexivity.
Qed.

(** *** Maximum detector *)

Definition swap_angles (c : cube) : cube :=
  mkCube (na c) (nd c) (nr c) (data c) (map (fun az => (snd az, fst az)) (angle_bins c)) (doppler_bins c) (range_bins c) (carrier_frequency c).

(** A single point is found if some cell has power: that of a strongest cell, at its range and
    velocity, but with azimuth and zenith exchanged.  Nothing is found otherwise. *)
Theorem C36_max_detector : forall c mx, wf c -> ranges_ok c -> is_max c mx ->
  (0 < mx -> exists i p m, in_cube c i /\ at_cell c i = mx /\ detect_max c = Ok (mkCloud m [p]) /\ p_power p = mx /\ describes (swap_angles c) i p) /\
  (mx <= 0 -> exists m, detect_max c = Ok (mkCloud m [])).
Proof.
  intros c mx W [r0 [Hr0 Pr0]] Hm.
  assert (N : not_empty c) by (destruct Hm as [[[[a d] r] [Hi _]] _]; cbn in Hi; unfold not_empty; lia).
  destruct (argmax_ok c N) as [[[a d] r] [Ei [Hi Mi]]]. pose proof (is_max_unique c _ _ Mi Hm) as E.
  assert (Nr : range_bins c <> []) by (intro K; rewrite K in Hr0; destruct Hr0).
  destruct (list_max_some _ Nr) as [m Em]. pose proof (proj2 (list_max_spec _ _ Em) r0 Hr0) as Hm0.
  assert (Ec : Rltb m 0 = false) by (apply Rltb_false; lra).
  unfold detect_max. rewrite Ei. cbn [bind]. rewrite Em. cbn [bind]. unfold make_cloud. rewrite Ec. cbn [bind]. rewrite E. split.
  - intro P. assert (Ep : Rleb mx 0 = false) by (apply Rleb_false, P). rewrite Ep.
    destruct W as [W1 [W2 [W3 W4]]]. destruct Hi as [Ha [Hd Hr]].
    unfold velocity_bins. assert (Ef : Rleb (carrier_frequency c) 0 = false) by (apply Rleb_false, W4). rewrite Ef. cbn [bind].
    destruct (nth_error (angle_bins c) a) as [[az ze]|] eqn:Ea; [|apply nth_error_None in Ea; lia].
    rewrite (nth_error_nth _ _ (0, 0) Ea).
    destruct (nth_error (range_bins c) r) as [rg|] eqn:Er; [|apply nth_error_None in Er; lia].
    rewrite (nth_error_nth _ _ 0 Er).
    destruct (nth_error (doppler_bins c) d) as [dp|] eqn:Ed; [|apply nth_error_None in Ed; lia].
    assert (Edm : nth_error (map (fun f => f * speed_of_light / carrier_frequency c) (doppler_bins c)) d
      = Some (dp * speed_of_light / carrier_frequency c)) by (rewrite nth_error_map', Ed; reflexivity).
    rewrite (nth_error_nth _ _ 0 Edm). unfold from_spherical, make_point. rewrite Ep. cbn [bind].
    exists (a, d, r). eexists. exists m. split; [cbn; auto|]. split; [exact E|]. split; [reflexivity|]. split; [reflexivity|].
    exists ze, az, rg, dp. cbn [swap_angles angle_bins range_bins doppler_bins carrier_frequency].
    split; [rewrite nth_error_map', Ea; reflexivity|]. do 4 (split; [reflexivity || assumption|]). cbn [p_power]. rewrite <- E. reflexivity.
  - intro P. assert (Ep : Rleb mx 0 = true) by (apply Rleb_true, P). rewrite Ep. exists m. reflexivity.
Qed.
Print Assumptions C36_max_detector.
Theorem C36_max_detector_position_refuted : ~ forall c k p, wf c -> ranges_ok c -> detect_max c = Ok k -> In p (points k) ->
  exists i, in_cube c i /\ describes c i p.
Proof.
  intro H.
  set (c := mkCube 1 1 1 (fun _ _ _ => 1) [(0, PI / 2)] [0] [1] 1).
  assert (W : wf c) by (unfold wf; cbn; repeat split; lra).
  assert (R : ranges_ok c) by (exists 1; cbn; split; [auto|lra]).
  assert (M : is_max c 1).
  { split; [exists (0, 0, 0)%nat; cbn; split; [lia|reflexivity]|]. intros [[a d] r] _. cbn. lra. }
  destruct (proj1 (C36_max_detector c 1 W R M) ltac:(lra)) as [[[a d] r] [p [m [Hi [_ [E [_ [az [ze [rg [dp [A1 [A2 [A3 [A4 _]]]]]]]]]]]]]]].
  destruct (H c _ p W R E (or_introl eq_refl)) as [[[a' d'] r'] [Hi' [az' [ze' [rg' [dp' [B1 [B2 [B3 [B4 _]]]]]]]]]].
  cbn in Hi, Hi'. assert (a = 0)%nat by lia. assert (a' = 0)%nat by lia. assert (r = 0)%nat by lia. assert (r' = 0)%nat by lia. subst.
  cbn in A1, A2, B1, B2. injection A1 as <- <-. injection A2 as <-. injection B1 as <- <-. injection B2 as <-.
  rewrite A4 in B4. unfold vscale, direction in B4. rewrite cos_0, sin_0, cos_PI2, sin_PI2 in B4.
  assert (K : 1 * 1 = 1 * 0); [|lra].
  pose proof (f_equal snd B4) as K. cbn [snd] in K. exact K.
Qed.
Print Assumptions C36_max_detector_position_refuted.
(** Both detectors agree wherever azimuth and zenith of all bins agree, e.g. if angles are left out. *)
Theorem C36_max_detector_agrees_for_equal_angles : forall c mx, wf c -> ranges_ok c -> is_max c mx -> 0 < mx ->
  (forall az ze, In (az, ze) (angle_bins c) -> az = ze) ->
  exists i p m, in_cube c i /\ at_cell c i = mx /\ detect_max c = Ok (mkCloud m [p]) /\ describes c i p.
Proof.
  intros c mx W R M P A. destruct (proj1 (C36_max_detector c mx W R M) P) as [i [p [m [Hi [Ei [E [_ D]]]]]]].
  exists i, p, m. split; [exact Hi|]. split; [exact Ei|]. split; [exact E|]. destruct i as [[a d] r].
  destruct D as [az [ze [rg [dp [D1 D2]]]]]. exists az, ze, rg, dp. split; [|exact D2].
  cbn [swap_angles angle_bins] in D1. rewrite nth_error_map' in D1. destruct (nth_error (angle_bins c) a) as [[x y]|] eqn:En; [|discriminate].
  cbn in D1. injection D1 as <- <-. assert (x = y) by (apply A; eapply nth_error_In; exact En). subst. reflexivity.
Qed.
Print Assumptions C36_max_detector_agrees_for_equal_angles.

(** Normalising a cube with a positive cell makes its maximum one and keeps all ratios. *)
Theorem C36_normalised_cube : forall c mx, is_max c mx -> 0 < mx ->
  exists c', normalize_power c = Ok c' /\ is_max c' 1 /\ forall i, at_cell c' i * mx = at_cell c i.
Proof.
  intros c mx Hm P. unfold normalize_power. rewrite (cells_max_of c mx Hm). cbn [bind]. eexists. split; [reflexivity|]. split.
  - destruct Hm as [[i [Hi Ei]] H]. split.
    + exists i. destruct i as [[a d] r]. split; [exact Hi|]. cbn in *. rewrite Ei. field. lra.
    + intros [[a d] r] Hj. specialize (H (a, d, r) Hj). cbn in *. apply Rmult_le_reg_r with mx; [exact P|]. unfold Rdiv. rewrite Rmult_assoc, Rinv_l; lra.
  - intros [[a d] r]. cbn. field. lra.
Qed.
Print Assumptions C36_normalised_cube.

(** *** Constant false alarm rate *)

Definition fits (f : cfar) (c : cube) : Prop := (window_x f <= nd c)%nat /\ (window_y f <= nr c)%nat.
Lemma make_cfar_ok t g p f : make_cfar t g p = Ok f ->
  f = mkCfar t g p /\ (0 < fst t)%nat /\ (0 < snd t)%nat /\ 0 <= p <= 1.
Proof.
  unfold make_cfar. destruct (Nat.eqb_spec (fst t) 0); [discriminate|]. destruct (Nat.eqb_spec (snd t) 0); [discriminate|]. cbn [orb].
  destruct (Rltb p 0) eqn:E1; [discriminate|]. destruct (Rltb 1 p) eqn:E2; [discriminate|]. cbn [orb]. intro H.
  apply Rltb_false in E1, E2. injection H as <-. split; [reflexivity|]. split; [lia|]. split; [lia|]. lra.
Qed.
(** Every cell has training cells. *)
Lemma training_exists f n m d r : (0 < fst (training f))%nat -> (window_x f <= n)%nat -> (d < n)%nat -> (r < m)%nat ->
  (0 < length (training_cells f n m d r))%nat.
Proof.
  intros T W Hd Hr. unfold window_x in W. set (k := (fst (training f) + fst (guard f))%nat).
  assert (H : exists d', In (d', r) (training_cells f n m d r)).
  { destruct (le_lt_dec n (d + k)) as [L|L]; [exists (d - k)%nat|exists (d + k)%nat];
      (apply filter_In; split; [apply in_prod; apply in_seq; lia|]; unfold trains, within; fold k; cbn [fst snd];
       repeat (match goal with |- context [(?a <=? ?b)%nat] => destruct (Nat.leb_spec a b) end); cbn [andb negb]; try reflexivity; exfalso; unfold k in *; lia). }
  destruct H as [d' H]. destruct (training_cells f n m d r); [destruct H|cbn; lia].
Qed.

(** A cell is detected if its power exceeds the mean power of its training cells by the factor
    that yields the requested false alarm probability. *)
Theorem C37_decision : forall t g p f c a d r, make_cfar t g p = Ok f -> 0 < p -> fits f c -> in_cube c (a, d, r) ->
  let cells := training_cells f (nd c) (nr c) d r in
  let n := INR (length cells) in
  let mean := sum_list (map (fun e => data c a (fst e) (snd e)) cells) / n in
  0 < n /\ (detected f c (a, d, r) = true <-> n * (Rpower p (- 1 / n) - 1) * Rabs mean < Rabs (data c a d r)).
Proof.
  intros t g p f c a d r Hf P [W1 W2] [Ha [Hd Hr]] cs n mean. apply make_cfar_ok in Hf. destruct Hf as [-> [T0 [T1 Hp]]].
  assert (Pn : 0 < n) by (unfold n; apply lt_0_INR, training_exists; assumption). split; [exact Pn|].
  unfold detected. cbn [pfa]. destruct (Req_EM_T p 0); [lra|]. rewrite !convolve_training by assumption. rewrite sum_ones, Rltb_true. fold cs. fold n.
  set (S := sum_list (map (fun e : nat * nat => data c a (fst e) (snd e)) cs)) in *.
  assert (E : n * (Rpower p (-1 / n) - 1) * Rabs mean = Rabs S * (Rpower p (-1 / n) - 1)).
  { unfold mean, Rdiv. rewrite Rabs_mult, Rabs_inv, (Rabs_right n) by lra. field. lra. }
  rewrite E. tauto.
Qed.
Print Assumptions C37_decision.

(** Training cells lie within the window around the cell under test and outside of its guard
    window, in the plane of the same angle. *)
Theorem C37_training_cells : forall f n m d r d' r', In (d', r') (training_cells f n m d r) <->
  (d' < n)%nat /\ (r' < m)%nat /\
  let dd := Z.abs (Z.of_nat d - Z.of_nat d') in let dr := Z.abs (Z.of_nat r - Z.of_nat r') in
  (dd <= Z.of_nat (fst (training f) + fst (guard f)))%Z /\ (dr <= Z.of_nat (snd (training f) + snd (guard f)))%Z /\
  ((dd > Z.of_nat (fst (guard f)))%Z \/ (dr > Z.of_nat (snd (guard f)))%Z).
Proof.
  intros f n m d r d' r'. unfold training_cells. rewrite filter_In, in_prod_iff, !in_seq. cbn [fst snd]. unfold trains, within.
  rewrite !andb_true_iff, negb_true_iff, !andb_false_iff, !Nat.leb_le, !Nat.leb_gt. cbv zeta. lia.
Qed.
Print Assumptions C37_training_cells.

(** Neither guard cells nor other angles influence the decision. *)
Theorem C37_decision_depends_on_training_cells : forall t g p f c c' a d r, make_cfar t g p = Ok f -> fits f c ->
  nd c' = nd c -> nr c' = nr c -> in_cube c (a, d, r) -> data c' a d r = data c a d r ->
  (forall d' r', In (d', r') (training_cells f (nd c) (nr c) d r) -> data c' a d' r' = data c a d' r') ->
  detected f c' (a, d, r) = detected f c (a, d, r).
Proof.
  intros t g p f c c' a d r Hf [W1 W2] E1 E2 [Ha [Hd Hr]] E3 E4. apply make_cfar_ok in Hf. destruct Hf as [-> [T0 [T1 Hp]]].
  unfold detected. cbn [pfa]. destruct (Req_EM_T p 0); [reflexivity|]. rewrite E1, E2, E3. rewrite !convolve_training by assumption.
  f_equal. f_equal. f_equal. f_equal. apply map_ext_in. intros [d' r'] H. apply E4, H.
Qed.
Print Assumptions C37_decision_depends_on_training_cells.

(** Neither does the gain of the receiver. *)
Theorem C37_decision_ignores_gain : forall t g p f c k i, make_cfar t g p = Ok f -> fits f c -> in_cube c i -> 0 < k ->
  detected f (scale_cube k c) i = detected f c i.
Proof.
  intros t g p f c k [[a d] r] Hf [W1 W2] [Ha [Hd Hr]] K. apply make_cfar_ok in Hf. destruct Hf as [-> [T0 [T1 Hp]]].
  unfold detected. cbn [pfa]. destruct (Req_EM_T p 0); [reflexivity|]. cbn [scale_cube nd nr data].
  assert (E : forall n m (x : nat -> nat -> R), convolve (mkCfar t g p) n m (fun i j => k * x i j) d r = k * convolve (mkCfar t g p) n m x d r).
  { intros n0 m x. unfold convolve. rewrite <- sumn_scale. apply sumn_ext. intros q _. rewrite <- sumn_scale. apply sumn_ext. intros q' _.
    unfold padded. destruct ((q <=? d + _) && _ && _ && _)%nat; ring. }
  rewrite (E (nd c) (nr c) (data c a)). rewrite !Rabs_mult, (Rabs_right k) by lra.
  set (N := convolve _ _ _ (data c a) d r). set (F := Rpower _ _ - 1).
  replace (k * Rabs N * F) with (k * (Rabs N * F)) by ring.
  destruct (Rltb (Rabs N * F) (Rabs (data c a d r))) eqn:B; [apply Rltb_true in B; apply Rltb_true|apply Rltb_false in B; apply Rltb_false].
  - apply Rmult_lt_compat_l; assumption.
  - apply Rmult_le_compat_l; lra.
Qed.
Print Assumptions C37_decision_ignores_gain.

Lemma Rpower_base_le p q x : 0 < p -> p <= q -> 0 <= x -> Rpower q (- x) <= Rpower p (- x).
Proof.
  intros P Q X. unfold Rpower. assert (L : ln p <= ln q) by (destruct Q as [Q| ->]; [left; apply ln_increasing; assumption|right; reflexivity]).
  assert (H : - x * ln q <= - x * ln p) by (apply Rmult_le_compat_neg_l; lra). destruct H as [H| ->]; [left; apply exp_increasing, H|right; reflexivity].
Qed.

(** A higher probability of false alarm finds more cells; with zero, none. *)
Theorem C37_false_alarms_monotone : forall t g p q f f' c i, make_cfar t g p = Ok f -> make_cfar t g q = Ok f' -> p <= q ->
  fits f c -> in_cube c i -> (detected f c i = true -> detected f' c i = true) /\ (p = 0 -> detected f c i = false).
Proof.
  intros t g p q f f' c [[a d] r] Hf Hf' PQ [W1 W2] Hi. pose proof Hf as Hf0. pose proof Hf' as Hf0'.
  apply make_cfar_ok in Hf. destruct Hf as [-> [T0 [T1 Hp]]]. apply make_cfar_ok in Hf'. destruct Hf' as [-> [_ [_ Hq]]].
  assert (Z : p = 0 -> detected (mkCfar t g p) c (a, d, r) = false) by (intros ->; unfold detected; cbn [pfa]; destruct (Req_EM_T 0 0); [reflexivity|lra]).
  split; [|exact Z]. destruct (Req_EM_T p 0) as [E|NE]; [intro K; rewrite (Z E) in K; discriminate|].
  destruct (C37_decision t g p _ c a d r Hf0 ltac:(lra) (conj W1 W2) Hi) as [Pn D].
  destruct (C37_decision t g q _ c a d r Hf0' ltac:(lra) (conj W1 W2) Hi) as [_ D'].
  change (training_cells (mkCfar t g q)) with (training_cells (mkCfar t g p)) in D'.
  set (cs := training_cells (mkCfar t g p) (nd c) (nr c) d r) in *. set (n := INR (length cs)) in *.
  intro H. apply D'. apply D in H. eapply Rle_lt_trans; [|exact H].
  apply Rmult_le_compat_r; [apply Rabs_pos|]. apply Rmult_le_compat_l; [lra|].
  assert (L : Rpower q (- (1 / n)) <= Rpower p (- (1 / n))) by (apply Rpower_base_le; [lra|lra|]; apply Rlt_le, Rdiv_lt_0_compat; lra).
  replace (- (1 / n)) with (-1 / n) in L by (field; lra). lra.
Qed.
Print Assumptions C37_false_alarms_monotone.

(** Nothing is found in flat cubes as long as the probability of false alarm does not exceed 1/e. *)
Theorem C37_flat_cubes_find_nothing : forall t g p f c a d r x, make_cfar t g p = Ok f -> p <= exp (-1) -> fits f c -> in_cube c (a, d, r) ->
  (forall d' r', (d' < nd c)%nat -> (r' < nr c)%nat -> data c a d' r' = x) -> detected f c (a, d, r) = false.
Proof.
  intros t g p f c a d r x Hf Pe F Hi HX. destruct (Req_EM_T p 0) as [E|NE].
  - exact (proj2 (C37_false_alarms_monotone t g p p f f c (a, d, r) Hf Hf (Rle_refl p) F Hi) E).
  - destruct (detected f c (a, d, r)) eqn:B; [|reflexivity]. exfalso.
    pose proof (make_cfar_ok _ _ _ _ Hf) as [_ [_ [_ Hp]]].
    destruct (C37_decision t g p f c a d r Hf ltac:(lra) F Hi) as [Pn D]. apply D in B.
    set (cs := training_cells f (nd c) (nr c) d r) in *. set (n := INR (length cs)) in *.
    assert (ES : sum_list (map (fun e => data c a (fst e) (snd e)) cs) = n * x).
    { rewrite (map_ext_in _ (fun _ => x)).
      - unfold n. generalize cs. intro l. induction l as [|y l IH]; [cbn; ring|]. cbn [map length]. rewrite S_INR, sum_cons, IH. ring.
      - intros [d' r'] H. apply C37_training_cells in H. apply HX; apply H. }
    rewrite ES in B. replace (n * x / n) with x in B by (field; lra).
    destruct Hi as [Ha [Hd Hr]]. rewrite (HX d r Hd Hr) in B.
    assert (K : 1 <= n * (Rpower p (-1 / n) - 1)).
    { unfold Rpower. assert (L : ln p <= -1) by (rewrite <- (ln_exp (-1)); destruct Pe as [Pe| ->]; [left; apply ln_increasing; lra|right; reflexivity]).
      assert (G : 1 + -1 / n * ln p <= exp (-1 / n * ln p)) by (apply exp_ineq1_le).
      assert (G2 : 1 = n * (1 / n)) by (field; lra). rewrite G2 at 1. apply Rmult_le_compat_l; [lra|].
      assert (G3 : 1 / n <= -1 / n * ln p).
      { replace (-1 / n * ln p) with (1 / n * - ln p) by (field; lra). rewrite <- (Rmult_1_r (1 / n)) at 1. apply Rmult_le_compat_l; [apply Rlt_le, Rdiv_lt_0_compat; lra|lra]. }
      lra. }
    pose proof (Rabs_pos x) as Ax. assert (1 * Rabs x <= n * (Rpower p (-1 / n) - 1) * Rabs x) by (apply Rmult_le_compat_r; assumption). lra.
Qed.
Print Assumptions C37_flat_cubes_find_nothing.

(** The detector reports exactly the detected cells of cubes without negative power, and refuses
    cubes smaller than its window. *)
Theorem C37_detector : forall t g p f c, make_cfar t g p = Ok f -> wf c -> ranges_ok c -> nonnegative c ->
  (fits f c -> exists found k, detect_cfar f c = Ok k /\ Forall2 (describes c) found (points k) /\ NoDup found /\
     forall i, In i found <-> in_cube c i /\ detected f c i = true) /\
  (~ fits f c -> detect_cfar f c = Raise ValueError).
Proof.
  intros t g p f c Hf W R NN. pose proof (make_cfar_ok _ _ _ _ Hf) as [Ef [T0 [T1 Hp]]]. unfold detect_cfar, cfar_cells, fits. split.
  - intros [W1 W2]. assert (E1 : (nd c <? window_x f)%nat = false) by (apply Nat.ltb_ge, W1).
    assert (E2 : (nr c <? window_y f)%nat = false) by (apply Nat.ltb_ge, W2). rewrite E1, E2. cbn [orb bind].
    set (found := filter (detected f c) (cells c)).
    assert (I : forall i, In i found <-> in_cube c i /\ detected f c i = true) by (intro i; unfold found; rewrite filter_In, in_cells; reflexivity).
    assert (F : Forall (fun i => in_cube c i /\ 0 < at_cell c i) found).
    { apply Forall_forall. intros [[a d] r] H. apply I in H. destruct H as [Hi D]. split; [exact Hi|].
      pose proof (NN _ Hi) as N0. cbn [at_cell] in *. destruct N0 as [N0|N0]; [exact N0|exfalso].
      destruct (Req_EM_T p 0) as [E|NE].
      - rewrite (proj2 (C37_false_alarms_monotone t g p p f f c (a, d, r) Hf Hf (Rle_refl p) (conj W1 W2) Hi) E) in D. discriminate.
      - destruct (C37_decision t g p f c a d r Hf ltac:(lra) (conj W1 W2) Hi) as [Pn K]. apply K in D. rewrite <- N0, Rabs_R0 in D.
        set (n := INR _) in *. set (m := Rabs _) in D. assert (0 <= m) by apply Rabs_pos.
        assert (0 <= Rpower p (-1 / n) - 1).
        { unfold Rpower. assert (L : ln p <= 0) by (rewrite <- ln_1; destruct (proj2 Hp) as [Q| ->]; [left; apply ln_increasing; lra|right; reflexivity]).
          assert (0 <= -1 / n * ln p).
          { replace (-1 / n * ln p) with (1 / n * - ln p) by (field; lra). apply Rmult_le_pos; [apply Rlt_le, Rdiv_lt_0_compat; lra|lra]. }
          pose proof (exp_ineq1_le (-1 / n * ln p)). lra. }
        assert (0 <= n * (Rpower p (-1 / n) - 1) * m); [|lra]. apply Rmult_le_pos; [apply Rmult_le_pos; lra|assumption]. }
    destruct (to_cloud_spec c found W R F) as [k [Ek Fk]]. exists found, k. split; [exact Ek|]. split; [exact Fk|].
    split; [apply NoDup_filter, cells_nodup|exact I].
  - intro H. destruct (Nat.ltb_spec (nd c) (window_x f)); [reflexivity|]. destruct (Nat.ltb_spec (nr c) (window_y f)); [reflexivity|]. exfalso. apply H. split; assumption.
Qed.
Print Assumptions C37_detector.
Example C37_hypotheses_met : exists f, make_cfar (1, 1)%nat (0, 1)%nat (1 / 10) = Ok f /\
  let c := mkCube 1 3 5 (fun _ d r => INR (d + r)) [(0, 0)] [-1; 0; 1] [0; 1; 2; 3; 4] 1 in
  fits f c /\ wf c /\ ranges_ok c /\ nonnegative c /\ training_cells f 3 5 1 2 = [(0, 0); (0, 1); (0, 2); (0, 3); (0, 4); (1, 0); (1, 4); (2, 0); (2, 1); (2, 2); (2, 3); (2, 4)]%nat.
Proof.
  eexists. split.
  - unfold make_cfar. cbn [fst snd Nat.eqb orb]. assert (E1 : Rltb (1 / 10) 0 = false) by (apply Rltb_false; lra).
    assert (E2 : Rltb 1 (1 / 10) = false) by (apply Rltb_false; lra). rewrite E1, E2. reflexivity.
  - cbv zeta. split; [unfold fits, window_x, window_y; cbn; lia|]. split; [unfold wf; cbn; repeat split; lra|].
    split; [exists 0; cbn; split; [auto|lra]|]. split; [intros [[a d] r] _; apply pos_INR|]. reflexivity.
Qed.
