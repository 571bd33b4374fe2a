(** Properties of the TI XWR1843 radar waveform *)
From Coq Require Import List Reals Bool Arith ZArith Lia Lra.
From Coquelicot Require Import Complex.
From Verif Require Import Base BaseLemmas Cplx Cplx_Proofs Radar_Model Ti_Model Ti_Spec Ti_Proofs.
Import ListNotations.
Local Open Scope nat_scope.

Definition nearest (m : nat) (x : list C) : list C := firstn m (x ++ repeat (RtoC 0) m).
Lemma nearest_faithful : faithful nearest.
Proof.
  split; [intros m x; unfold nearest; rewrite firstn_length, app_length, repeat_length; lia|]. intro x. unfold nearest. rewrite firstn_app, Nat.sub_diag, firstn_all. cbn [firstn]. apply app_nil_r.
Qed.
(** Four samples in each of three chirps at the rate of the converter *)
Definition short_ramp : ramp := mkRamp 3 1 (4 / adc_rate).
Lemma short_samples : chirp_samples short_ramp adc_rate = 4.
Proof.
  unfold chirp_samples. rewrite (proj1 (decimated_slow adc_rate (Rle_refl _))). apply whole_unique. cbn [chirp_interval short_ramp INR]. pose proof adc_pos. replace (4 / adc_rate * adc_rate)%R with 4%R by (field; lra). lra.
Qed.
Lemma default_samples : chirp_samples default_ramp adc_rate = 375.
Proof.
  unfold chirp_samples. rewrite (proj1 (decimated_slow adc_rate (Rle_refl _))). apply whole_unique. cbn [chirp_interval default_ramp]. unfold adc_rate. replace (INR 375) with 375%R by (rewrite INR_IZR_INZ; reflexivity). lra.
Qed.
Lemma default_half : whole (chirp_interval default_ramp * adc_rate / 2) = 187.
Proof. apply whole_unique. cbn [chirp_interval default_ramp]. unfold adc_rate. replace (INR 187) with 187%R by (rewrite INR_IZR_INZ; reflexivity). lra. Qed.

(** An echo whose beat turns backwards a whole number of times [j] per chirp, at most half as often as there are samples, and whose phase advances by [p] turns over the frame is one peak of its power, at column [j] and [p] rows from the middle *)
Theorem C129_echo_peak : forall resample w r A (p : Z) j line, faithful resample -> 0 < num_chirps w -> 0 < chirp_samples w r ->
  j <= chirp_samples w r / 2 -> (- Z.of_nat (num_chirps w / 2) <= p < Z.of_nat (num_chirps w - num_chirps w / 2))%Z ->
  length line = decimation r * (num_chirps w * chirp_samples w r) ->
  (forall i, i < num_chirps w * chirp_samples w r -> at0 line (i * decimation r) = at0 (echo A (num_chirps w) (chirp_samples w r) p (- Z.of_nat j)) i) ->
  exists g, estimate resample w r [line] = Ok g /\ single_peak (num_chirps w) (chirp_samples w r / 2 + 1) (Z.to_nat (Z.of_nat (num_chirps w / 2) + p)) j (Cmod A ^ 2) g.
Proof.
  intros resample w r A p j line F HN Hn Hj Hp L E. destruct (estimate_echo resample w r A p (- Z.of_nat j) line F HN Hn L E) as (g & G & G1 & G2 & G3). exists g. split; [exact G|]. split; [exact G1|]. split; [exact G2|]. intros i k Hi Hk. rewrite (G3 i k Hi Hk).
  rewrite row_found, column_found by assumption. pose proof (div_lt2 _ Hn). rewrite mod_zero_small by lia. replace (- - Z.of_nat j - Z.of_nat k =? 0)%Z with (k =? j); [reflexivity|]. destruct (Nat.eqb_spec k j); symmetry; [apply Z.eqb_eq|apply Z.eqb_neq]; lia.
Qed.
Print Assumptions C129_echo_peak.
Example C129_echo_peak_met : exists g, estimate nearest short_ramp adc_rate [echo (RtoC 2) 3 4 1 (-1)] = Ok g /\ single_peak 3 3 2 1 4 g.
Proof.
  pose proof short_samples as S4. assert (D : decimation adc_rate = 1) by (apply decimated_slow; apply Rle_refl).
  destruct (C129_echo_peak nearest short_ramp adc_rate (RtoC 2) 1 1 (echo (RtoC 2) 3 4 1 (-1)) nearest_faithful) as (g & G & P); rewrite ?S4, ?D; cbn [num_chirps short_ramp].
  - lia. - lia. - cbn; lia. - cbn; lia. - rewrite length_echo. reflexivity. - intros i _. rewrite Nat.mul_1_r. reflexivity.
  - exists g. split; [exact G|]. rewrite S4 in P. cbn [num_chirps short_ramp] in P. replace (Cmod (RtoC 2) ^ 2)%R with 4%R in P; [exact P|]. rewrite Cmod_R, Rabs_pos_eq by lra. ring.
Qed.
(** Echoes whose beat turns forwards, less than half as often as there are samples, are not seen at all *)
Theorem C129_mirrored_echo : forall resample w r A (p : Z) j line, faithful resample -> 0 < num_chirps w -> 0 < j -> 2 * j < chirp_samples w r ->
  length line = decimation r * (num_chirps w * chirp_samples w r) ->
  (forall i, i < num_chirps w * chirp_samples w r -> at0 line (i * decimation r) = at0 (echo A (num_chirps w) (chirp_samples w r) p (Z.of_nat j)) i) ->
  exists g, estimate resample w r [line] = Ok g /\ silent (num_chirps w) (chirp_samples w r / 2 + 1) g.
Proof.
  intros resample w r A p j line F HN Hj Hn L E. destruct (estimate_echo resample w r A p (Z.of_nat j) line F HN ltac:(lia) L E) as (g & G & G1 & G2 & G3). exists g. split; [exact G|]. split; [exact G1|]. split; [exact G2|]. intros i k Hi Hk. rewrite (G3 i k Hi Hk).
  rewrite column_found by lia. pose proof (Nat.div_mod (chirp_samples w r) 2 ltac:(lia)) as D. pose proof (Nat.mod_upper_bound (chirp_samples w r) 2 ltac:(lia)). rewrite (mod_zero_small (- Z.of_nat j - Z.of_nat k)) by lia.
  replace (- Z.of_nat j - Z.of_nat k =? 0)%Z with false by (symmetry; apply Z.eqb_neq; lia). rewrite andb_false_r. reflexivity.
Qed.
Print Assumptions C129_mirrored_echo.
Example C129_mirrored_echo_met : exists g, estimate nearest short_ramp adc_rate [echo (RtoC 2) 3 4 1 1] = Ok g /\ silent 3 3 g.
Proof.
  pose proof short_samples as S4. assert (D : decimation adc_rate = 1) by (apply decimated_slow; apply Rle_refl).
  destruct (C129_mirrored_echo nearest short_ramp adc_rate (RtoC 2) 1 1 (echo (RtoC 2) 3 4 1 1) nearest_faithful) as (g & G & P); rewrite ?S4, ?D; cbn [num_chirps short_ramp].
  - lia. - lia. - lia. - rewrite length_echo. reflexivity. - intros i _. rewrite Nat.mul_1_r. reflexivity.
  - exists g. split; [exact G|]. rewrite S4 in P. exact P.
Qed.
(** Samples are skipped until the rate is that of the converter or exceeds it by less than a factor of two; slower signals are left alone *)
Theorem C129_decimation : forall r, (r <= adc_rate -> decimated_rate r = r)%R /\ (adc_rate < r -> adc_rate <= decimated_rate r < 2 * adc_rate)%R /\
  (forall k, 0 < k -> decimated_rate (INR k * adc_rate) = adc_rate).
Proof.
  intro r. split; [intro H; apply decimated_slow; exact H|]. pose proof adc_pos as P. split.
  - intro H. destruct (decimated_fast r H) as [A B]. split; [exact A|]. pose proof (decimation_pos r) as K. apply lt_0_INR in K as K'. assert (1 <= INR (decimation r))%R by (change 1%R with (INR 1); apply le_INR; lia).
    assert (adc_rate / INR (decimation r) <= adc_rate)%R; [|lra]. apply Rmult_le_reg_r with (INR (decimation r)); [exact K'|]. unfold Rdiv. rewrite Rmult_assoc, Rinv_l by lra. rewrite Rmult_1_r. rewrite <- (Rmult_1_r adc_rate) at 1. apply Rmult_le_compat_l; lra.
  - intros k Hk. unfold decimated_rate, decimation, Rltb. destruct (Rlt_dec adc_rate (INR k * adc_rate)) as [H|H].
    + replace (INR k * adc_rate / adc_rate)%R with (INR k) by (field; lra). rewrite (whole_unique (INR k) k) by lra. field. apply not_0_INR. lia.
    + assert (k = 1). { destruct (Nat.eq_dec k 1); [assumption|]. exfalso. apply H. rewrite <- (Rmult_1_l adc_rate) at 1. apply Rmult_lt_compat_r; [exact P|]. change 1%R with (INR 1). apply lt_INR. lia. } subst k. cbn [INR]. field.
Qed.
Print Assumptions C129_decimation.
Example C129_decimation_met : decimated_rate (3 * 12500000) = 12500000%R.
Proof. destruct (C129_decimation 0) as (_ & _ & H). specialize (H 3 ltac:(lia)). unfold adc_rate in H. cbn [INR] in H. replace (1 + 1 + 1)%R with 3%R in H by ring. exact H. Qed.
(** Radars at least as fast as the converter receive the columns of the range bins beyond the minimal range *)
Theorem C129_reception : forall resample w m r line, faithful resample -> (0 < chirp_interval w)%R -> (adc_rate <= r)%R -> (1 <= chirp_interval w * adc_rate)%R ->
  exists e, estimate resample w r [line] = Ok e /\ length e = num_chirps w /\ length (relative_doppler_bins w) = num_chirps w /\
  receive_line resample w m r line = Ok (map (fun row => map snd (filter (fun x => Rleb m (fst x)) (combine (range_bins w) row))) e, filter (Rleb m) (range_bins w)).
Proof.
  intros resample w m r line F Ht Hr H1. destruct (estimate resample w r [line]) as [e|x] eqn:E; [|rewrite estimate_one in E by exact F; discriminate]. exists e. split; [reflexivity|].
  assert (Hn : 0 < chirp_samples w r).
  { assert (Q : (adc_rate <= decimated_rate r)%R). { destruct (Rle_dec r adc_rate) as [L|L]; [rewrite (proj1 (decimated_slow r L)); exact Hr|]. apply decimated_fast. lra. }
    assert (K : (1 <= chirp_interval w * decimated_rate r)%R) by (apply Rle_trans with (1 := H1); apply Rmult_le_compat_l; lra). unfold chirp_samples. apply INR_lt. pose proof (whole_spec _ (Rle_trans _ _ _ Rle_0_1 K)). cbn [INR]. lra. }
  split; [apply (estimate_shape _ _ _ _ _ F Hn E)|]. split; [unfold relative_doppler_bins, tab; rewrite map_length, seq_length; reflexivity|]. apply received; try assumption. apply enough_columns; assumption.
Qed.
Print Assumptions C129_reception.
Example C129_reception_met : faithful nearest /\ (0 < chirp_interval default_ramp)%R /\ (adc_rate <= 20000000)%R /\ (1 <= chirp_interval default_ramp * adc_rate)%R.
Proof. split; [apply nearest_faithful|]. cbn [chirp_interval default_ramp]. unfold adc_rate. lra. Qed.
(** Slower radars may have fewer columns than range bins, and receiving fails *)
Theorem C129_slow_reception : forall resample w m r line, faithful resample -> 0 < whole (chirp_interval w * adc_rate / 2) -> chirp_samples w r / 2 < whole (chirp_interval w * adc_rate / 2) -> (m <= max_range w)%R ->
  receive_line resample w m r line = Raise IndexError.
Proof.
  intros resample w m r line F Hk Hc Hm. unfold receive_line. rewrite estimate_one by exact F. cbn [bind]. unfold pick. destruct (forallb (fun c => c <? chirp_samples w r / 2 + 1) (selected w m)) eqn:A; [|reflexivity].
  exfalso. rewrite forallb_forall in A. assert (I : In (num_range_bins w - 1) (selected w m)). { unfold selected. apply filter_In. split; [apply in_seq; unfold num_range_bins; lia|]. rewrite last_bin by exact Hk. unfold Rleb. destruct (Rle_dec m (max_range w)); [reflexivity|contradiction]. }
  apply A in I. apply Nat.ltb_lt in I. unfold num_range_bins in I. lia.
Qed.
Print Assumptions C129_slow_reception.
Example C129_slow_reception_met : forall resample line, faithful resample -> receive_line resample default_ramp 0 10000000 line = Raise IndexError.
Proof.
  intros resample line F. apply C129_slow_reception; [exact F|rewrite default_half; lia| |].
  - rewrite default_half. assert (E : chirp_samples default_ramp 10000000 = 300).
    { unfold chirp_samples. rewrite (proj1 (decimated_slow 10000000 ltac:(unfold adc_rate; lra))). apply whole_unique. cbn [chirp_interval default_ramp]. replace (INR 300) with 300%R by (rewrite INR_IZR_INZ; reflexivity). lra. }
    rewrite E. apply Nat.ltb_lt. reflexivity.
  - unfold max_range. cbn [chirp_slope default_ramp]. unfold adc_rate, speed_of_light. lra.
Qed.
(** The range of bin [j] is that of a target whose beat turns [j] times per chirp, stretched by a factor between one and one more than the inverse of the number of the last bin *)
Theorem C129_range_bins : forall w j, (0 < chirp_slope w)%R -> (0 < chirp_interval w)%R -> let last := whole (chirp_interval w * adc_rate / 2) in 0 < last -> j <= last ->
  exists stretch, nth_error (range_bins w) j = Some (beat_range (chirp_slope w) (INR j / chirp_interval w) * stretch)%R /\ (1 <= stretch < 1 + / INR last)%R /\
  (stretch = 1 <-> chirp_interval w * adc_rate = 2 * INR last)%R.
Proof.
  intros w j Hs Ht last Hl Hj. exists (chirp_interval w * adc_rate / (2 * INR last))%R. apply lt_0_INR in Hl as L. pose proof adc_pos as P. assert (X : (0 <= chirp_interval w * adc_rate / 2)%R). { apply Rmult_le_pos; [apply Rmult_le_pos; lra|lra]. }
  pose proof (whole_spec _ X) as W. fold last in W. split; [|split].
  - rewrite nth_error_nth' with (d := 0%R) by (rewrite length_range_bins; unfold num_range_bins; fold last; lia). f_equal. apply range_bin; try assumption. unfold num_range_bins. fold last. lia.
  - set (x := (chirp_interval w * adc_rate)%R) in *. split; [apply Rmult_le_reg_r with (2 * INR last)%R|apply Rmult_lt_reg_r with (2 * INR last)%R]; try lra.
    + replace (x / (2 * INR last) * (2 * INR last))%R with x by (field; lra). lra.
    + replace (x / (2 * INR last) * (2 * INR last))%R with x by (field; lra). replace ((1 + / INR last) * (2 * INR last))%R with (2 * INR last + 2)%R by (field; lra). lra.
  - set (x := (chirp_interval w * adc_rate)%R) in *. split; intro H.
    + replace x with (x / (2 * INR last) * (2 * INR last))%R by (field; lra). rewrite H. ring.
    + rewrite H. field. lra.
Qed.
Print Assumptions C129_range_bins.
Example C129_range_bins_met : whole (chirp_interval default_ramp * adc_rate / 2) = 187.
Proof. apply default_half. Qed.
(** By default all ranges but zero are too long *)
Theorem C129_default_ranges_refuted : forall j, 0 < j <= 187 -> exists d, nth_error (range_bins default_ramp) j = Some d /\ (d = beat_range (chirp_slope default_ramp) (INR j / chirp_interval default_ramp) * (375 / 374))%R /\
  (beat_range (chirp_slope default_ramp) (INR j / chirp_interval default_ramp) < d)%R.
Proof.
  intros j Hj. pose proof default_half as H. eexists. split; [|split; [reflexivity|]].
  - rewrite nth_error_nth' with (d := 0%R) by (rewrite length_range_bins; unfold num_range_bins; rewrite H; lia). f_equal. rewrite range_bin by (rewrite ?H; cbn [chirp_slope chirp_interval default_ramp]; try lra; try lia; unfold num_range_bins; rewrite H; lia). rewrite H.
    f_equal. replace (INR 187) with 187%R by (rewrite INR_IZR_INZ; reflexivity). cbn [chirp_interval default_ramp]. unfold adc_rate. field.
  - unfold beat_range. cbn [chirp_slope chirp_interval default_ramp]. unfold speed_of_light. assert (0 < INR j)%R by (apply lt_0_INR; lia). lra.
Qed.
Print Assumptions C129_default_ranges_refuted.
(** The Doppler bin of the row of an echo advancing by [p] turns over the frame is half its frequency, for odd numbers of chirps less half a bin *)
Theorem C129_doppler_bins : forall w (p : Z), 0 < num_chirps w -> (0 < chirp_interval w)%R -> (- Z.of_nat (num_chirps w / 2) <= p < Z.of_nat (num_chirps w - num_chirps w / 2))%Z ->
  nth_error (relative_doppler_bins w) (Z.to_nat (Z.of_nat (num_chirps w / 2) + p)) =
  Some (IZR p / frame_duration w / 2 - INR (num_chirps w mod 2) * relative_doppler_resolution w / 2)%R.
Proof.
  intros w p HN Ht Hp. set (k := Z.to_nat (Z.of_nat (num_chirps w / 2) + p)). assert (K : k < num_chirps w) by (unfold k; pose proof (div_lt2 _ HN); lia).
  unfold relative_doppler_bins. rewrite nth_error_nth' with (d := 0%R) by (unfold tab; rewrite map_length, seq_length; exact K). rewrite nth_tab by exact K. f_equal.
  assert (E : INR k = (INR (num_chirps w / 2) + IZR p)%R) by (rewrite !INR_IZR_INZ, <- plus_IZR; f_equal; unfold k; lia).
  assert (D : INR (num_chirps w) = (2 * INR (num_chirps w / 2) + INR (num_chirps w mod 2))%R). { rewrite (Nat.div_mod (num_chirps w) 2) at 1 by lia. rewrite plus_INR, mult_INR. reflexivity. }
  apply lt_0_INR in HN as HN'. assert (H2 : INR (num_chirps w / 2) = ((INR (num_chirps w) - INR (num_chirps w mod 2)) / 2)%R) by lra. rewrite E, H2. unfold relative_doppler_resolution, max_relative_doppler, frame_duration. field. lra.
Qed.
Print Assumptions C129_doppler_bins.
Example C129_doppler_bins_met : nth_error (relative_doppler_bins default_ramp) 8 = Some 0%R.
Proof. pose proof (C129_doppler_bins default_ramp 0) as H. cbn [num_chirps default_ramp Nat.div Nat.divmod fst Nat.sub Nat.modulo snd] in H. change (Z.to_nat (Z.of_nat 8 + 0)) with 8 in H. rewrite H; [|lia|cbn [chirp_interval default_ramp]; lra|lia]. f_equal. cbn [INR]. unfold Rdiv. ring. Qed.
(** With an odd number of chirps no bin is that of a target at rest *)
Theorem C129_odd_chirps_refuted : forall w, Nat.Odd (num_chirps w) -> (0 < chirp_interval w)%R -> ~ In 0%R (relative_doppler_bins w).
Proof.
  intros w [h O] Ht I. unfold relative_doppler_bins, tab in I. apply in_map_iff in I. destruct I as (k & E & _). unfold relative_doppler_resolution, max_relative_doppler in E. assert (N : (0 < INR (num_chirps w))%R) by (apply lt_0_INR; lia).
  assert (Q : (2 * INR k = INR (num_chirps w))%R). { apply Rmult_eq_reg_r with (/ (4 * INR (num_chirps w) * chirp_interval w))%R; [|apply Rinv_neq_0_compat; apply Rgt_not_eq; apply Rmult_lt_0_compat; lra]. replace (2 * INR k * / (4 * INR (num_chirps w) * chirp_interval w))%R with (INR k * (1 / (2 * INR (num_chirps w) * chirp_interval w)))%R by (field; lra). replace (INR (num_chirps w) * / (4 * INR (num_chirps w) * chirp_interval w))%R with (1 / (4 * chirp_interval w))%R by (field; lra). lra. }
  change 2%R with (INR 2) in Q. rewrite <- mult_INR in Q. apply INR_eq in Q. lia.
Qed.
Print Assumptions C129_odd_chirps_refuted.
Example C129_odd_chirps_refuted_met : Nat.Odd (num_chirps short_ramp) /\ (0 < chirp_interval short_ramp)%R.
Proof. split; [exists 1; reflexivity|]. cbn [chirp_interval short_ramp]. unfold adc_rate. lra. Qed.
(** Only signals of a single stream are estimated *)
Theorem C129_streams : forall resample w r streams, faithful resample -> 0 < num_chirps w -> 0 < chirp_samples w r -> length streams <> 1 -> estimate resample w r streams = Raise ValueError.
Proof.
  intros resample w r streams [L _] HN Hn H. unfold estimate, reshape. set (n := chirp_samples w r) in *. set (N := num_chirps w) in *.
  assert (Q : length (concat (map (resample (n * N)) (map (every (decimation r)) streams))) = length streams * (n * N)). { clear H. induction streams as [|a s IH]; [reflexivity|]. cbn [map concat length]. rewrite app_length, L, IH. lia. }
  rewrite Q. destruct (Nat.eqb_spec (length streams * (n * N)) (N * n)) as [E|E]; [|reflexivity]. exfalso. apply H. assert (0 < n * N) by nia. nia.
Qed.
Print Assumptions C129_streams.
Example C129_streams_met : estimate nearest short_ramp adc_rate [[RtoC 1]; [RtoC 1]] = Raise ValueError.
Proof. apply C129_streams; [apply nearest_faithful|cbn; lia|rewrite short_samples; lia|discriminate]. Qed.
(** The range resolution is the distance of neighbouring bins for one bandwidth only *)
Theorem C129_range_resolution : forall w bandwidth j, (0 < chirp_slope w)%R -> (0 < chirp_interval w)%R -> (0 < bandwidth)%R -> let last := whole (chirp_interval w * adc_rate / 2) in j < last ->
  (nth (S j) (range_bins w) 0 - nth j (range_bins w) 0 = range_resolution w bandwidth <-> bandwidth = 2 * INR last / chirp_interval w)%R.
Proof.
  intros w b j Hs Ht Hb last Hj. assert (L : (0 < INR last)%R) by (apply lt_0_INR; lia). rewrite !range_bin by (try assumption; unfold num_range_bins; fold last; lia). fold last. rewrite S_INR. unfold beat_range, range_resolution, max_range. pose proof adc_pos as P. assert (SL : (0 < speed_of_light)%R) by (unfold speed_of_light; lra).
  set (M := (adc_rate * speed_of_light / (4 * chirp_slope w))%R). assert (HM : (0 < M)%R). { unfold M. apply Rmult_lt_0_compat; [apply Rmult_lt_0_compat; assumption|]. apply Rinv_0_lt_compat. lra. }
  replace (speed_of_light * ((INR j + 1) / chirp_interval w) / (2 * chirp_slope w) * (chirp_interval w * adc_rate / (2 * INR last)) - speed_of_light * (INR j / chirp_interval w) / (2 * chirp_slope w) * (chirp_interval w * adc_rate / (2 * INR last)))%R with (M / INR last)%R by (unfold M; field; lra).
  clearbody M. assert (X : (0 < chirp_interval w * b)%R) by (apply Rmult_lt_0_compat; assumption). split; intro H.
  - assert (Q : (M * (chirp_interval w * b) = 2 * M * INR last)%R). { replace (M * (chirp_interval w * b))%R with (M / INR last * (INR last * (chirp_interval w * b)))%R by (field; lra). rewrite H. field. lra. }
    apply Rmult_eq_reg_l with (M * chirp_interval w)%R; [|apply Rgt_not_eq; apply Rmult_lt_0_compat; assumption]. replace (M * chirp_interval w * (2 * INR last / chirp_interval w))%R with (2 * M * INR last)%R by (field; lra). lra.
  - subst b. field. lra.
Qed.
Print Assumptions C129_range_resolution.
Example C129_range_resolution_met : (nth 1 (range_bins default_ramp) 0 - nth 0 (range_bins default_ramp) 0 <> range_resolution default_ramp 3000000000)%R.
Proof.
  pose proof default_half as H. rewrite C129_range_resolution; rewrite ?H; cbn [chirp_slope chirp_interval default_ramp]; try lra; try lia. replace (INR 187) with 187%R by (rewrite INR_IZR_INZ; reflexivity). lra.
Qed.
(** Pings have no streams, and as many samples as fit into the chirps of the frame, although their energy is positive *)
Theorem C129_ping : forall w r, (0 < chirp_interval w)%R -> (0 < r)%R -> fst (ping w r) = [] /\ (INR (snd (ping w r)) <= INR (num_chirps w) * chirp_interval w * r < INR (snd (ping w r)) + 1)%R /\
  (forall bandwidth oversampling, 0 < num_chirps w -> 0 < oversampling -> (0 < bandwidth)%R -> (0 < chirp_slope w)%R -> (0 < energy w bandwidth oversampling)%R).
Proof.
  intros w r Ht Hr. split; [reflexivity|]. split.
  - unfold ping, frame_duration. cbn [snd]. apply whole_spec. pose proof (pos_INR (num_chirps w)). apply Rmult_le_pos; [apply Rmult_le_pos; lra|lra].
  - intros b o HN Ho Hb Hs. unfold energy. apply lt_0_INR in HN. apply lt_0_INR in Ho. apply Rmult_lt_0_compat; [|exact Ho]. apply Rmult_lt_0_compat; [|apply Rinv_0_lt_compat; exact Hs]. apply Rmult_lt_0_compat; [exact HN|]. apply pow_lt. exact Hb.
Qed.
Print Assumptions C129_ping.
Example C129_ping_met : (0 < chirp_interval default_ramp)%R /\ 0 < num_chirps default_ramp /\ (0 < chirp_slope default_ramp)%R.
Proof. cbn [num_chirps chirp_interval chirp_slope default_ramp]. repeat split; try lra. lia. Qed.
