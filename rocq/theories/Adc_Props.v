(** C32, C33, C34, C56: quantization, gain control and frames of analog-digital converters. *)
From Coq Require Import Reals List Arith Bool ZArith Lia Lra Psatz.
From Verif Require Import Base BaseLemmas Adc_Model Adc_Spec Adc_Proofs.
Import ListNotations.
Open Scope R_scope.

(** *** C32 *)

(** Within full scale the quantization error is at most half a step, for both quantizers and
    every number of bits. *)
Theorem C32_error_half_step : forall q bits x, (0 < bits)%nat -> Rabs x <= 1 ->
  Rabs (quantize1 q bits x - x) <= step_of q bits / 2.
Proof.
  intros q b x Hb Hx. rewrite quantize1_uq by exact Hb.
  apply uq_error; auto using q_step_pos, q_cd, q_sym, q_full, q_lohi.
Qed.
Print Assumptions C32_error_half_step.
Example C32_error_half_step_used : step_of MidRiser 3 = 1 / 4 /\ Rabs (quantize1 MidRiser 3 (3 / 10) - 3 / 10) <= 1 / 8.
Proof.
  assert (E : step_of MidRiser 3 = 1 / 4) by (unfold step_of, num_levels; field). split; [exact E|].
  replace (1 / 8) with (step_of MidRiser 3 / 2) by (rewrite E; field).
  apply C32_error_half_step; [lia|]. rewrite Rabs_right; lra.
Qed.

(** The step is the full scale range over the number of levels. *)
Theorem C32_step : forall bits, step_of MidRiser bits = 2 / 2 ^ bits /\ step_of MidTread bits = 2 / (2 ^ bits + 1).
Proof. intro b. unfold step_of, num_levels. split; f_equal; ring. Qed.
Print Assumptions C32_step.

(** At and beyond full scale the output is the outermost level, half a step inside. *)
Theorem C32_clipping : forall q bits x, (0 < bits)%nat ->
  (1 <= x -> quantize1 q bits x = 1 - step_of q bits / 2) /\
  (x <= - 1 -> quantize1 q bits x = - (1 - step_of q bits / 2)) /\
  Rabs (quantize1 q bits x) <= 1 - step_of q bits / 2.
Proof.
  intros q b x Hb. rewrite quantize1_uq by exact Hb. split; [|split].
  - intro H. apply uq_above; auto using q_step_pos, q_cd, q_sym, q_full, q_lohi.
  - intro H. apply uq_below; auto using q_step_pos, q_cd, q_sym, q_full, q_lohi.
  - apply uq_range; auto using q_step_pos, q_cd, q_sym, q_full, q_lohi.
Qed.
Print Assumptions C32_clipping.

(** Quantized values are reproduced. *)
Theorem C32_idempotent : forall q bits x, (0 < bits)%nat ->
  quantize1 q bits (quantize1 q bits x) = quantize1 q bits x.
Proof.
  intros q b x Hb. rewrite !quantize1_uq by exact Hb.
  apply uq_idempotent; auto using q_step_pos, q_cd, q_sym, q_full, q_lohi.
Qed.
Print Assumptions C32_idempotent.

(** The number of bits: negative numbers raise, zero switches quantization off. *)
Theorem C32_number_of_bits : forall v : Z,
  ((v < 0)%Z -> set_bits (Some v) = Raise ValueError) /\
  set_bits (Some 0%Z) = Ok None /\
  ((0 < v)%Z -> exists n, set_bits (Some v) = Ok (Some n) /\ Z.of_nat n = v).
Proof.
  intro v. unfold set_bits. split; [|split].
  - intro H. apply Z.ltb_lt in H. rewrite H. reflexivity.
  - reflexivity.
  - intro H. destruct (Z.ltb_spec v 0); [lia|]. destruct (Z.ltb_spec 0 v); [|lia]. exists (Z.to_nat v).
    split; [reflexivity|lia].
Qed.
Print Assumptions C32_number_of_bits.
Theorem C32_no_quantization : forall q s, quantize q None s = s.
Proof. reflexivity. Qed.
Print Assumptions C32_no_quantization.

(** *** C33 *)
Theorem C33_monotone : forall q bits x y, (0 < bits)%nat -> x <= y -> quantize1 q bits x <= quantize1 q bits y.
Proof.
  intros q b x y Hb H. rewrite !quantize1_uq by exact Hb. apply uq_mono; auto using q_step_pos.
Qed.
Print Assumptions C33_monotone.

(** The mid-riser quantizer has exactly 2^bits output values. *)
Theorem C33_mid_riser_levels : forall bits, (0 < bits)%nat ->
  exists levels, NoDup levels /\ length levels = (2 ^ bits)%nat /\
    forall y, In y levels <-> exists x, quantize1 MidRiser bits x = y.
Proof.
  intros b Hb. destruct (uq_levels (step_of MidRiser b) (q_c MidRiser) (q_d MidRiser) (q_lo b) (q_hi MidRiser b)) as [l [N [L I]]];
    auto using q_step_pos, q_cd, q_sym, q_full, q_lohi.
  exists l. split; [exact N|]. split.
  - rewrite L. rewrite <- half_nat by exact Hb. f_equal. unfold q_hi, q_lo. lia.
  - intro y. rewrite I. split; intros [x E]; exists x; [rewrite quantize1_uq|rewrite quantize1_uq in E]; auto.
Qed.
Print Assumptions C33_mid_riser_levels.

(** The mid-tread quantizer has 2^bits + 1 output values, zero among them. *)
Theorem C33_mid_tread_levels : forall bits, (0 < bits)%nat ->
  exists levels, NoDup levels /\ length levels = (2 ^ bits + 1)%nat /\
    (forall y, In y levels <-> exists x, quantize1 MidTread bits x = y) /\ In 0 levels.
Proof.
  intros b Hb. destruct (uq_levels (step_of MidTread b) (q_c MidTread) (q_d MidTread) (q_lo b) (q_hi MidTread b)) as [l [N [L I]]];
    auto using q_step_pos, q_cd, q_sym, q_full, q_lohi.
  exists l. split; [exact N|]. split; [|split].
  - rewrite L. rewrite <- half_nat by exact Hb. pose proof (half_pos b Hb). unfold q_hi, q_lo. lia.
  - intro y. rewrite I. split; intros [x E]; exists x; [rewrite quantize1_uq|rewrite quantize1_uq in E]; auto.
  - apply I. exists 0. unfold uq, index. replace (0 / step_of MidTread b + q_c MidTread) with (/ 2) by (cbn; unfold Rdiv; ring).
    rewrite (Int_part_unique (/ 2) 0) by lra. pose proof (half_pos b Hb).
    replace (Z.max (q_lo b) (Z.min 0 (q_hi MidTread b))) with 0%Z by (unfold q_lo, q_hi; lia). cbn. ring.
Qed.
Print Assumptions C33_mid_tread_levels.

(** Hence it needs more values than its number of bits can distinguish. *)
Theorem C33_mid_tread_resolution_refuted : ~ forall bits, (0 < bits)%nat ->
  exists levels, (length levels <= 2 ^ bits)%nat /\ forall x, In (quantize1 MidTread bits x) levels.
Proof.
  intro H. destruct (H 1%nat ltac:(lia)) as [l [L I]]. destruct (C33_mid_tread_levels 1 ltac:(lia)) as [l' [N [L' [I' _]]]].
  assert (incl l' l). { intros y Hy. apply I' in Hy. destruct Hy as [x <-]. apply I. }
  pose proof (NoDup_incl_length N H0). cbn in L, L'. lia.
Qed.
Print Assumptions C33_mid_tread_resolution_refuted.

(** Both quantizers are odd beyond full scale and at all inputs that are not decision
    thresholds; at a threshold inside full scale they round up on both sides. *)
Definition threshold (q : quantizer) (bits : nat) (x : R) : Prop :=
  exists m : Z, x = step_of q bits * match q with MidRiser => IZR m | MidTread => IZR m - / 2 end.
Theorem C33_odd : forall q bits x, (0 < bits)%nat -> (1 <= Rabs x \/ ~ threshold q bits x) ->
  quantize1 q bits (- x) = - quantize1 q bits x.
Proof.
  intros q b x Hb H. rewrite !quantize1_uq by exact Hb. pose proof (q_step_pos q b Hb) as Hs.
  apply uq_odd; auto using q_step_pos, q_cd, q_sym, q_full, q_lohi.
  destruct H as [H|H]; [left; exact H|right]. intros m E. apply H. exists m.
  replace x with (step_of q b * (x / step_of q b)) at 1 by (field; lra). f_equal.
  destruct q; cbn in E |- *; lra.
Qed.
Print Assumptions C33_odd.
Theorem C33_thresholds : forall q bits x, (0 < bits)%nat -> Rabs x < 1 -> threshold q bits x ->
  quantize1 q bits (- x) = - quantize1 q bits x + step_of q bits.
Proof.
  intros q b x Hb Hx [m E]. rewrite !quantize1_uq by exact Hb. pose proof (q_step_pos q b Hb) as Hs.
  apply uq_tie with (m := m); auto using q_step_pos, q_cd, q_sym, q_full, q_lohi.
  rewrite E. destruct q; cbn [q_c]; field; lra.
Qed.
Print Assumptions C33_thresholds.
Example C33_odd_used : ~ threshold MidRiser 1 (1 / 2).
Proof.
  intros [m E]. replace (step_of MidRiser 1) with 1 in E by (unfold step_of, num_levels; field).
  assert (IZR (2 * m) = IZR 1) by (rewrite mult_IZR; lra). apply eq_IZR in H. lia.
Qed.

(** *** C34 *)

Theorem C34_parameters_positive : forall t x,
  (make_gain x = if Rle_dec x 0 then Raise ValueError else Ok (FixedGain x)) /\
  (x <= 0 -> make_gain x = Raise ValueError /\ make_agc t x = Raise ValueError) /\
  (0 < x -> make_gain x = Ok (FixedGain x) /\ make_agc t x = Ok (Automatic t x)).
Proof.
  intros t x. unfold make_gain, make_agc. split; [reflexivity|]. destruct (Rle_dec x 0); split; intro H; try lra; split; reflexivity.
Qed.
Print Assumptions C34_parameters_positive.

(** A signal that is not zero is scaled by a positive factor such that its largest
    in-phase or quadrature amplitude is exactly 1 / backoff. *)
Theorem C34_peak_amplitude : forall norm2 backoff s, 0 < backoff -> (exists x, In x (amplitudes s) /\ x <> 0) ->
  exists gain, estimate_gain norm2 (Automatic MaxAmplitude backoff) s = Ok gain /\ 0 < gain /\
    is_peak (1 / backoff) (amplitudes (scale gain s)).
Proof.
  intros norm2 backoff s Hb [x [Hx Nx]].
  assert (HN : concat s <> []).
  { intro E. unfold amplitudes in Hx. rewrite real_concat, imag_concat, E in Hx. destruct Hx. }
  destruct (agc_max_gain norm2 backoff s HN) as [m [[P1 P2] E]]. rewrite E.
  assert (Hm : 0 < m).
  { pose proof (proj1 (Forall_forall _ _) P1 x Hx) as A. cbn in A. pose proof (Rabs_pos_lt x Nx). lra. }
  destruct (Rlt_dec 0 m); [|lra]. exists (1 / (m * backoff)). split; [reflexivity|].
  assert (Hg : 0 < 1 / (m * backoff)) by (apply Rdiv_lt_0_compat; nra). split; [exact Hg|].
  assert (Eg : forall y, Rabs (y * (1 / (m * backoff))) = Rabs y / m * (1 / backoff)).
  { intro y. rewrite Rabs_mult, (Rabs_right (1 / (m * backoff))) by lra. field. lra. }
  rewrite amplitudes_scale. split.
  - apply Forall_forall. intros y Hy. apply in_map_iff in Hy. destruct Hy as [z [<- Hz]]. rewrite Eg.
    pose proof (proj1 (Forall_forall _ _) P1 z Hz) as A. cbn in A.
    assert (B : Rabs z / m <= 1) by (apply (Rmult_le_reg_r m); [exact Hm|]; unfold Rdiv; rewrite Rmult_assoc, Rinv_l; lra).
    assert (D : 0 < 1 / backoff) by (apply Rdiv_lt_0_compat; lra). nra.
  - destruct P2 as [z [Hz Ez]]. exists (z * (1 / (m * backoff))). split; [apply in_map_iff; exists z; auto|].
    rewrite Eg, Ez. field. lra.
Qed.
Print Assumptions C34_peak_amplitude.

(** With backoff at least one, nothing exceeds full scale. *)
Theorem C34_within_full_scale : forall norm2 backoff s, 1 <= backoff -> concat s <> [] ->
  exists gain, estimate_gain norm2 (Automatic MaxAmplitude backoff) s = Ok gain /\ 0 < gain /\
    Forall (fun x => Rabs x <= 1) (amplitudes (scale gain s)).
Proof.
  intros norm2 backoff s Hb HN.
  destruct (agc_max_gain norm2 backoff s HN) as [m [[P1 P2] E]].
  destruct (Rlt_dec 0 m) as [Hm|Hm].
  - destruct (C34_peak_amplitude norm2 backoff s ltac:(lra)) as [g [Eg [Pg [A _]]]].
    + destruct P2 as [x [Hx Ex]]. exists x. split; [exact Hx|]. intro Z. rewrite Z, Rabs_R0 in Ex. lra.
    + exists g. split; [exact Eg|]. split; [exact Pg|]. revert A. apply Forall_impl. intros y Hy.
      assert (1 / backoff <= 1). { apply (Rmult_le_reg_r backoff); [lra|]. unfold Rdiv. rewrite Rmult_1_l, Rinv_l; lra. }
      lra.
  - exists 1. split; [exact E|]. split; [lra|]. rewrite amplitudes_scale. apply Forall_forall. intros y Hy.
    apply in_map_iff in Hy. destruct Hy as [z [<- Hz]].
    pose proof (proj1 (Forall_forall _ _) P1 z Hz) as A. cbn in A. rewrite Rmult_1_r. lra.
Qed.
Print Assumptions C34_within_full_scale.

(** An all-zero signal passes with gain one. *)
Theorem C34_zero_signal : forall norm2 backoff s, concat s <> [] -> Forall (fun x => x = 0) (amplitudes s) ->
  estimate_gain norm2 (Automatic MaxAmplitude backoff) s = Ok 1.
Proof.
  intros norm2 backoff s HN HZ. destruct (agc_max_gain norm2 backoff s HN) as [m [[_ [x [Hx Ex]]] E]]. rewrite E.
  pose proof (proj1 (Forall_forall _ _) HZ x Hx) as Z. cbn in Z. rewrite Z, Rabs_R0 in Ex. subst m.
  destruct (Rlt_dec 0 0); [lra|reflexivity].
Qed.
Print Assumptions C34_zero_signal.

(** An empty signal cannot be converted with automatic gain control. *)
Theorem C34_empty_signal_raises : forall norm2 backoff s, concat s = [] ->
  estimate_gain norm2 (Automatic MaxAmplitude backoff) s = Raise ValueError.
Proof.
  intros norm2 backoff s H. cbn [estimate_gain]. unfold max_abs. rewrite real_concat, H. reflexivity.
Qed.
Print Assumptions C34_empty_signal_raises.

(** Without quantization and with rescaling the converter is transparent, whatever the gain
    control does. *)
Theorem C34_transparent : forall norm2 g q s out, 
  (forall gain, estimate_gain norm2 g s = Ok gain -> gain <> 0) ->
  convert_frame norm2 g true q None s = Ok out -> out = s.
Proof.
  intros norm2 g q s out HG H. unfold convert_frame in H. destruct (estimate_gain norm2 g s) as [k|]; [|discriminate].
  cbn [bind quantize rescale] in H. injection H as <-. specialize (HG k eq_refl). unfold scale. rewrite map_map.
  rewrite <- (map_id s) at 2. apply map_ext. intro r. rewrite map_map. rewrite <- (map_id r) at 2. apply map_ext.
  intros [a b]. cbn. f_equal; field; exact HG.
Qed.
Print Assumptions C34_transparent.

(** Automatic gain control with backoff at least one, quantization and rescaling: every
    amplitude of the output deviates from the input by at most half a step, measured in units
    of backoff times the peak of the input. *)
Theorem C34_conversion_error : forall norm2 q bits backoff s m, (0 < bits)%nat -> 1 <= backoff -> 0 < m ->
  is_peak m (amplitudes s) ->
  exists out, convert_frame norm2 (Automatic MaxAmplitude backoff) true q (Some bits) s = Ok out /\
    samplewise (fun x y => Rabs (y - x) <= step_of q bits / 2 * (m * backoff)) s out.
Proof.
  intros norm2 q b backoff s m Hb Hbo Hm HP.
  assert (HN : concat s <> []).
  { destruct HP as [_ [x [Hx _]]]. intro E. unfold amplitudes in Hx. rewrite real_concat, imag_concat, E in Hx. destruct Hx. }
  destruct (agc_max_gain norm2 backoff s HN) as [m' [HP' E]].
  assert (m' = m).
  { destruct HP as [A [x [Hx Ex]]], HP' as [A' [x' [Hx' Ex']]].
    pose proof (proj1 (Forall_forall _ _) A x' Hx') as B. pose proof (proj1 (Forall_forall _ _) A' x Hx) as B'. cbn in B, B'. lra. }
  subst m'. destruct (Rlt_dec 0 m); [|lra]. unfold convert_frame. rewrite E. cbn [bind]. eexists. split; [reflexivity|].
  cbn [rescale quantize]. set (g := 1 / (m * backoff)).
  assert (Hg : 0 < g) by (apply Rdiv_lt_0_compat; nra).
  assert (K : forall x, In x (amplitudes s) -> Rabs (quantize1 q b (x * g) / g - x) <= step_of q b / 2 * (m * backoff)).
  { intros x Hx. assert (S1 : Rabs (x * g) <= 1).
    { rewrite Rabs_mult, (Rabs_right g) by lra. destruct HP as [A _]. pose proof (proj1 (Forall_forall _ _) A x Hx) as B. cbn in B.
      unfold g. replace (Rabs x * (1 / (m * backoff))) with (Rabs x / m * (1 / backoff)) by (field; lra).
      assert (B1 : Rabs x / m <= 1) by (apply (Rmult_le_reg_r m); [exact Hm|]; unfold Rdiv; rewrite Rmult_assoc, Rinv_l; lra).
      assert (B0 : 0 <= Rabs x / m) by (apply Rmult_le_pos; [apply Rabs_pos|apply Rlt_le, Rinv_0_lt_compat, Hm]).
      assert (B2 : 1 / backoff <= 1) by (apply (Rmult_le_reg_r backoff); [lra|]; unfold Rdiv; rewrite Rmult_1_l, Rinv_l; lra).
      assert (B3 : 0 < 1 / backoff) by (apply Rdiv_lt_0_compat; lra). nra. }
    pose proof (C32_error_half_step q b (x * g) Hb S1) as B.
    replace (quantize1 q b (x * g) / g - x) with ((quantize1 q b (x * g) - x * g) * (m * backoff)) by (unfold g; field; lra).
    rewrite Rabs_mult, (Rabs_right (m * backoff)) by nra. apply Rmult_le_compat_r; [nra|exact B]. }
  unfold samplewise, scale. rewrite !map_map. apply Forall2_map_self. intros row Hrow. rewrite !map_map. apply Forall2_map_self.
  intros z Hz. cbn [fst snd].
  assert (In z (concat s)) by (apply in_concat; exists row; auto).
  split; apply K; unfold amplitudes; rewrite real_concat, imag_concat; apply in_or_app; [left|right]; apply in_map; assumption.
Qed.
Print Assumptions C34_conversion_error.
Example C34_conversion_error_used : is_peak 3 (amplitudes [[(1, - 3); (2, 0)]]).
Proof.
  unfold amplitudes. cbn. split.
  - repeat (apply Forall_cons; [unfold Rabs; destruct (Rcase_abs _); lra|]). apply Forall_nil.
  - exists (- 3). split; [right; right; left; reflexivity|]. unfold Rabs. destruct (Rcase_abs _); lra.
Qed.

(** RMS gain control of a single stream normalises the stronger component to a mean square
    of 1 / backoff^2. *)
Definition mean_square (x : list (list R)) : R := energy (concat x) / INR (length (concat x)).
Theorem C34_rms_single_stream : forall norm2 backoff row,
  (forall x, length x = length row -> spectral_norm (length row) [x] (norm2 [x])) -> 0 < backoff ->
  let s := [row] in 0 < Rmax (mean_square (real s)) (mean_square (imag s)) ->
  exists gain, estimate_gain norm2 (Automatic RmsAmplitude backoff) s = Ok gain /\ 0 < gain /\
    Rmax (mean_square (real (scale gain s))) (mean_square (imag (scale gain s))) = / backoff ^ 2.
Proof.
  intros norm2 backoff row HN Hb s HM. cbn [estimate_gain]. eexists. split; [reflexivity|].
  set (n := length row). set (re := map fst row). set (im := map snd row).
  assert (Lre : length re = n) by apply map_length. assert (Lim : length im = n) by apply map_length.
  assert (Hn : 0 < INR n).
  { apply lt_0_INR. destruct row as [|z row]; [|unfold n; cbn; lia].
    exfalso. unfold s, mean_square in HM. cbn in HM. rewrite Rmax_left in HM by lra. unfold energy, dot in HM. cbn in HM.
    unfold Rdiv in HM. rewrite Rmult_0_l in HM. lra. }
  assert (C1 : forall x : list R, concat [x] = x) by (intro x; cbn; apply app_nil_r).
  assert (RV : forall x, length x = n -> rms_value norm2 [x] = sqrt (mean_square [x])).
  { intros x Lx. pose proof (HN x Lx) as SN. pose proof (single_row_norm x n (norm2 [x]) Lx SN) as E.
    destruct SN as [P _]. unfold rms_value, mean_square. rewrite C1, Lx, <- E.
    unfold Rdiv. rewrite sqrt_mult_alt by apply pow2_ge_0. rewrite sqrt_pow2 by exact P. f_equal. symmetry. apply sqrt_inv. }
  assert (MN : forall x, length x = n -> 0 <= mean_square [x]).
  { intros x Lx. unfold mean_square. rewrite C1, Lx. apply Rmult_le_pos; [apply energy_nonneg|]. apply Rlt_le, Rinv_0_lt_compat, Hn. }
  assert (MS : forall x k, mean_square [map (fun a => a * k) x] = k ^ 2 * mean_square [x]).
  { intros x k. unfold mean_square. rewrite !C1, map_length. replace (energy (map (fun a => a * k) x)) with (k ^ 2 * energy x); [unfold Rdiv; ring|].
    unfold energy, dot. induction x as [|a x IH]; cbn; [ring|]. rewrite <- IH. ring. }
  assert (Er : forall k, real (scale k s) = [map (fun a => a * k) re]) by (intro k; unfold real, scale, s, re; cbn; rewrite !map_map; reflexivity).
  assert (Ei : forall k, imag (scale k s) = [map (fun a => a * k) im]) by (intro k; unfold imag, scale, s, im; cbn; rewrite !map_map; reflexivity).
  assert (Er1 : real s = [re]) by reflexivity. assert (Ei1 : imag s = [im]) by reflexivity.
  rewrite Er, Ei, Er1, Ei1 in *. rewrite !RV by assumption. rewrite !MS.
  pose proof (MN re Lre) as Pr. pose proof (MN im Lim) as Pi. set (a := mean_square [re]) in *. set (c := mean_square [im]) in *.
  assert (SM : Rmax (sqrt a) (sqrt c) = sqrt (Rmax a c)).
  { unfold Rmax at 2. destruct (Rle_dec a c); [rewrite Rmax_right|rewrite Rmax_left]; try reflexivity; apply sqrt_le_1_alt; lra. }
  rewrite SM. rewrite Rmax_left by apply sqrt_pos. set (M := Rmax a c) in *.
  assert (SP : 0 < sqrt M) by (apply sqrt_lt_R0; exact HM). unfold gain_from. destruct (Rlt_dec 0 (sqrt M)); [|lra].
  split; [apply Rdiv_lt_0_compat; nra|].
  set (g := 1 / (sqrt M * backoff)).
  assert (RM : Rmax (g ^ 2 * a) (g ^ 2 * c) = g ^ 2 * M) by (unfold M; symmetry; rewrite RmaxRmult; [reflexivity|apply pow2_ge_0]).
  rewrite RM. unfold g. rewrite <- (sqrt_sqrt M) at 2 by lra. field. split; lra.
Qed.
Print Assumptions C34_rms_single_stream.

(** For several streams it does not, because the matrix norm it divides by is smaller than
    the root of the energy. *)
Theorem C34_rms_several_streams_refuted : ~ forall norm2 backoff n s,
  (forall x, length x = length s -> Forall (fun r => length r = n) x -> spectral_norm n x (norm2 x)) ->
  rectangular n s -> 0 < backoff -> 0 < Rmax (mean_square (real s)) (mean_square (imag s)) ->
  exists gain, estimate_gain norm2 (Automatic RmsAmplitude backoff) s = Ok gain /\
    Rmax (mean_square (real (scale gain s))) (mean_square (imag (scale gain s))) = / backoff ^ 2.
Proof.
  intro H.
  (* the largest stretching factor of a 2 x 2 matrix *)
  set (p := fun x : list (list R) => nth 0 (nth 0 x []) 0 ^ 2 + nth 0 (nth 1 x []) 0 ^ 2).
  set (r := fun x : list (list R) => nth 1 (nth 0 x []) 0 ^ 2 + nth 1 (nth 1 x []) 0 ^ 2).
  set (w := fun x : list (list R) => nth 0 (nth 0 x []) 0 * nth 1 (nth 0 x []) 0 + nth 0 (nth 1 x []) 0 * nth 1 (nth 1 x []) 0).
  set (root := fun x => sqrt ((p x - r x) ^ 2 + 4 * w x ^ 2)).
  set (lam := fun x => (p x + r x + root x) / 2).
  set (norm2 := fun x : list (list R) => sqrt (lam x)).
  assert (SN : forall x, length x = 2%nat -> Forall (fun r => length r = 2%nat) x -> spectral_norm 2 x (norm2 x)).
  { intros x Lx Fx. destruct x as [|r1 [|r2 [|]]]; try discriminate.
    apply Forall_cons_iff in Fx. destruct Fx as [F1 Fx]. apply Forall_inv in Fx.
    destruct r1 as [|a [|c [|]]]; try discriminate. destruct r2 as [|e [|f [|]]]; try discriminate.
    unfold norm2. set (x := [[a; c]; [e; f]]).
    assert (Pp : 0 <= p x) by (unfold p; cbn [nth x]; pose proof (pow2_ge_0 a); pose proof (pow2_ge_0 e); lra).
    assert (Pr : 0 <= r x) by (unfold r; cbn [nth x]; pose proof (pow2_ge_0 c); pose proof (pow2_ge_0 f); lra).
    assert (D0 : 0 <= (p x - r x) ^ 2 + 4 * w x ^ 2) by (pose proof (pow2_ge_0 (p x - r x)); pose proof (pow2_ge_0 (w x)); lra).
    assert (R0 : 0 <= root x) by apply sqrt_pos.
    assert (R2 : root x * root x = (p x - r x) ^ 2 + 4 * w x ^ 2) by (apply sqrt_sqrt; exact D0).
    assert (L0 : 0 <= lam x) by (unfold lam; lra).
    assert (S2 : sqrt (lam x) ^ 2 = lam x) by (apply pow2_sqrt; exact L0).
    (* characteristic polynomial *)
    assert (CP : (lam x - p x) * (lam x - r x) = w x ^ 2) by (unfold lam; nra).
    assert (LP : 0 <= lam x - p x) by (unfold lam; assert (Rabs (p x - r x) <= root x); [apply Rsqr_incr_0_var; [rewrite <- Rsqr_abs; unfold Rsqr; nra|exact R0]|]; apply abs_le_inv in H0; lra).
    assert (LR : 0 <= lam x - r x) by (unfold lam; assert (Rabs (p x - r x) <= root x); [apply Rsqr_incr_0_var; [rewrite <- Rsqr_abs; unfold Rsqr; nra|exact R0]|]; apply abs_le_inv in H0; lra).
    assert (EN : forall v1 v2, energy (map (fun r => dot r [v1; v2]) x) = p x * v1 ^ 2 + r x * v2 ^ 2 + 2 * w x * (v1 * v2)).
    { intros v1 v2. unfold energy, dot, p, r, w. cbn. ring. }
    assert (EV : forall v1 v2, energy [v1; v2] = v1 ^ 2 + v2 ^ 2) by (intros; unfold energy, dot; cbn; ring).
    clearbody lam root p r w. clear Pp Pr D0.
    split; [apply sqrt_pos|]. rewrite S2. split.
    - intros v Lv. destruct v as [|v1 [|v2 [|]]]; try discriminate. rewrite EN, EV.
      set (A := lam x - p x) in *. set (B := lam x - r x) in *.
      assert (Q : 0 <= A * v1 ^ 2 + B * v2 ^ 2 - 2 * w x * (v1 * v2)).
      { destruct (Req_dec A 0) as [Z|Z].
        - rewrite Z in CP. assert (W0 : w x = 0) by nra. rewrite Z, W0. pose proof (pow2_ge_0 v2). nra.
        - assert (A * (A * v1 ^ 2 + B * v2 ^ 2 - 2 * w x * (v1 * v2)) = (A * v1 - w x * v2) ^ 2) by nra.
          pose proof (pow2_ge_0 (A * v1 - w x * v2)). assert (0 < A) by lra.
          apply Rnot_lt_le. intro N. nra. }
      unfold A, B in Q. nra.
    - set (A := lam x - p x) in *. set (B := lam x - r x) in *.
      assert (Ep : p x = lam x - A) by (unfold A; ring). assert (Er : r x = lam x - B) by (unfold B; ring).
      destruct (Req_dec A 0) as [Z|Z].
      + exists [1; 0]. split; [reflexivity|]. rewrite EV, EN. split; [ring|]. rewrite Ep, Z. ring.
      + set (N := sqrt (w x ^ 2 + A ^ 2)).
        assert (NP : 0 < w x ^ 2 + A ^ 2) by (pose proof (pow2_ge_0 (w x)); assert (0 < A) by lra; nra).
        assert (N0 : 0 < N) by (apply sqrt_lt_R0; exact NP).
        assert (N2 : N * N = w x ^ 2 + A ^ 2) by (apply sqrt_sqrt; lra).
        exists [w x / N; A / N]. split; [reflexivity|]. rewrite EV, EN. split.
        * replace ((w x / N) ^ 2 + (A / N) ^ 2) with ((w x ^ 2 + A ^ 2) / (N * N)) by (field; lra). rewrite N2. field. lra.
        * replace (p x * (w x / N) ^ 2 + r x * (A / N) ^ 2 + 2 * w x * (w x / N * (A / N)))
            with ((p x * w x ^ 2 + r x * A ^ 2 + 2 * w x ^ 2 * A) / (N * N)) by (field; lra).
          rewrite N2, Ep, Er. 
          replace ((lam x - A) * w x ^ 2 + (lam x - B) * A ^ 2 + 2 * w x ^ 2 * A)
            with (lam x * (w x ^ 2 + A ^ 2) + A * (w x ^ 2 - A * B)) by ring.
          rewrite CP. field. lra. }
  destruct (H norm2 1 2%nat [[(1, 0); (0, 0)]; [(0, 0); (1, 0)]]) as [g [Eg Em]].
  - intros x Lx Fx. apply SN; [exact Lx|exact Fx].
  - apply Forall_cons; [reflexivity|apply Forall_cons; [reflexivity|apply Forall_nil]].
  - lra.
  - unfold mean_square, energy, dot. cbn. apply Rlt_le_trans with (2 := Rmax_l _ _). lra.
  - cbn [estimate_gain] in Eg.
    assert (Inj : forall a b : R, Ok a = Ok b -> a = b) by (intros a b E; injection E; auto). apply Inj in Eg.
    assert (V1 : rms_value norm2 (real [[(1, 0); (0, 0)]; [(0, 0); (1, 0)]]) = / 2).
    { unfold rms_value, norm2, lam, root, p, r, w. cbn [real map fst nth concat app length].
      replace ((1 ^ 2 + 0 ^ 2 - (0 ^ 2 + 1 ^ 2)) ^ 2 + 4 * (1 * 0 + 0 * 1) ^ 2) with 0 by ring. rewrite sqrt_0.
      replace ((1 ^ 2 + 0 ^ 2 + (0 ^ 2 + 1 ^ 2) + 0) / 2) with 1 by field. rewrite sqrt_1.
      replace (INR 4) with (2 * 2) by (cbn; ring). rewrite sqrt_square by lra. field. }
    assert (V2 : rms_value norm2 (imag [[(1, 0); (0, 0)]; [(0, 0); (1, 0)]]) = 0).
    { unfold rms_value, norm2, lam, root, p, r, w. cbn [imag map snd nth concat app length].
      replace ((0 ^ 2 + 0 ^ 2 - (0 ^ 2 + 0 ^ 2)) ^ 2 + 4 * (0 * 0 + 0 * 0) ^ 2) with 0 by ring. rewrite sqrt_0.
      replace ((0 ^ 2 + 0 ^ 2 + (0 ^ 2 + 0 ^ 2) + 0) / 2) with 0 by field. rewrite sqrt_0. unfold Rdiv. ring. }
    rewrite V1, V2 in Eg. rewrite (Rmax_left (/ 2) 0), (Rmax_left (/ 2) 0) in Eg by lra. unfold gain_from in Eg.
    destruct (Rlt_dec 0 (/ 2)); [|lra]. assert (g = 2) by (rewrite <- Eg; field). subst g.
    unfold mean_square, energy, dot in Em. cbn in Em. rewrite Rmax_left in Em by lra. lra.
Qed.
Print Assumptions C34_rms_several_streams_refuted.

(** *** C56 *)

(** If the signal consists of whole frames, every frame is converted on its own and the
    output is as long as the input. *)
Theorem C56_frames_are_converted_independently : forall norm2 g flag q bits n count s (c : nat -> signal),
  (0 < n)%nat -> s <> [] -> rectangular (count * n) s ->
  (forall f, (f < count)%nat -> convert_frame norm2 g flag q bits (columns (f * n) ((f + 1) * n) s) = Ok (c f)) ->
  exists out, propagate norm2 g flag q bits n s = Ok out /\
    length out = length s /\ rectangular (count * n) out /\
    (forall f, (f < count)%nat -> columns (f * n) ((f + 1) * n) out = c f).
Proof.
  intros norm2 g flag q bits n count s c Hn HN R HC. unfold propagate.
  destruct (Nat.ltb_spec 0 n); [|lia]. rewrite (rect_num_samples _ s R HN), ceil_div_exact by exact Hn.
  destruct (frames_prefix norm2 g flag q bits n (count * n) s c R HN count ltac:(lia) HC) as [out [E [Ro [Lo Co]]]].
  exists out. split; [exact E|]. auto.
Qed.
Print Assumptions C56_frames_are_converted_independently.
Example C56_frames_used : rectangular (2 * 1) [[(1, 0); (0, 1)]] /\
  columns (1 * 1) ((1 + 1) * 1) [[(1, 0); (0, 1)]] = [[(0, 1)]].
Proof. split; [apply Forall_cons; [reflexivity|apply Forall_nil]|reflexivity]. Qed.

(** The default, one frame, converts the whole signal at once. *)
Theorem C56_single_frame : forall norm2 g flag q bits N s out, (0 < N)%nat -> s <> [] -> rectangular N s ->
  convert_frame norm2 g flag q bits s = Ok out -> propagate norm2 g flag q bits N s = Ok out.
Proof.
  intros norm2 g flag q bits N s out HP HN R H.
  assert (C0 : columns (0 * N) ((0 + 1) * N) s = s).
  { unfold columns. rewrite <- (map_id s) at 2. apply map_ext_in. intros r Hr.
    pose proof (proj1 (Forall_forall _ _) R r Hr) as L. cbn in L. unfold slice. cbn. rewrite Nat.add_0_r, Nat.sub_0_r, <- L. apply firstn_all. }
  destruct (C56_frames_are_converted_independently norm2 g flag q bits N 1 s (fun _ => out) HP HN) as [o [E [L [Ro Co]]]].
  - rewrite Nat.mul_1_l. exact R.
  - intros f Hf. replace f with 0%nat by lia. rewrite C0. exact H.
  - rewrite E. f_equal. specialize (Co 0%nat ltac:(lia)). rewrite <- Co.
    unfold columns. rewrite <- (map_id o) at 1. apply map_ext_in. intros r Hr.
    pose proof (proj1 (Forall_forall _ _) Ro r Hr) as Lr. cbn in Lr. unfold slice. cbn. rewrite Nat.add_0_r, Nat.sub_0_r.
    symmetry. rewrite Nat.add_0_r in Lr. rewrite <- Lr. apply firstn_all.
Qed.
Print Assumptions C56_single_frame.

(** A signal with an incomplete last frame of at least two samples cannot be converted. *)
Theorem C56_incomplete_frame_raises : forall norm2 x flag q bits n count r s,
  (2 <= r < n)%nat -> s <> [] -> rectangular (count * n + r) s ->
  propagate norm2 (FixedGain x) flag q bits n s = Raise ValueError.
Proof.
  intros norm2 x flag q bits n count r s Hr HN R. unfold propagate.
  destruct (Nat.ltb_spec 0 n); [|lia]. rewrite (rect_num_samples _ s R HN).
  assert (E : ceil_div (count * n + r) n = S count).
  { unfold ceil_div. replace (count * n + r + (n - 1))%nat with ((r - 1) + (S count) * n)%nat by (cbn; lia).
    rewrite Nat.div_add, Nat.div_small by lia. reflexivity. }
  rewrite E, seq_S, fold_left_app. cbn [Nat.add].
  set (conv := fun t => rescale flag x (quantize q bits (scale x t))).
  assert (HC : forall t, convert_frame norm2 (FixedGain x) flag q bits t = Ok (conv t)) by reflexivity.
  destruct (frames_prefix norm2 (FixedGain x) flag q bits n (count * n + r) s (fun f => conv (columns (f * n) ((f + 1) * n) s)) R HN count
              ltac:(lia) (fun f _ => HC _)) as [acc [Ea _]].
  unfold frames_step in Ea. rewrite Ea. cbn [fold_left bind]. rewrite HC. cbn [bind].
  assert (NS : num_samples (conv (columns (count * n) ((count + 1) * n) s)) = r).
  { pose proof (convert_shape norm2 (FixedGain x) flag q bits _ _ (HC (columns (count * n) ((count + 1) * n) s))) as Sh.
    assert (G : forall o t : signal, map (@length _) o = map (@length _) t -> num_samples o = num_samples t).
    { intros [|u o] [|v t] Hm; try discriminate; [reflexivity|]. cbn [map] in Hm. cbn [num_samples]. congruence. }
    rewrite (G _ _ Sh). destruct s as [|row s]; [contradiction|]. apply Forall_inv in R.
    cbn [columns map num_samples]. rewrite length_slice, R. lia. }
  unfold put_frame. rewrite NS. destruct (Nat.eqb_spec r n); [lia|]. destruct (Nat.eqb_spec r 1); [lia|]. reflexivity.
Qed.
Print Assumptions C56_incomplete_frame_raises.
Example C56_incomplete_frame_used : rectangular (1 * 3 + 2) [[(1, 0); (0, 1); (1, 1); (2, 0); (0, 2)]].
Proof. apply Forall_cons; [reflexivity|apply Forall_nil]. Qed.

(** Frames shorter than half a sample period lose the whole signal. *)
Theorem C56_empty_frames_lose_the_signal : forall norm2 g flag q bits s,
  propagate norm2 g flag q bits 0 s = Ok (map (fun _ => []) s).
Proof. reflexivity. Qed.
Print Assumptions C56_empty_frames_lose_the_signal.
