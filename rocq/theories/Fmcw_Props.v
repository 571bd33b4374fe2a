(** Properties of frequency modulated continuous wave radars (C92). *)
From Coq Require Import List Reals Bool Arith ZArith Lia Lra Psatz.
From Coquelicot Require Import Complex.
From Verif Require Import Base BaseLemmas Cplx Cplx_Proofs Radar_Model Fmcw_Model Fmcw_Spec Fmcw_Proofs.
From Verif Require Mf_Proofs Sc_Proofs Blk_Proofs.
Import ListNotations.
Local Open Scope nat_scope.

(** ** Transmission *)
(** A transmitted frame always has the energy the waveform advertises. *)
Theorem C92_energy : forall w b o s, ping w b o = Ok s -> energy_of s = INR (energy w b o).
Proof.
  intros w b o s H. unfold ping in H. destruct (pulse w b o) as [p|] eqn:P; [|discriminate]. cbn [bind] in H. injection H as <-. rewrite energy_repeat. unfold pulse in P.
  destruct (_ <? 0)%Z; [discriminate|]. injection P as <-. rewrite energy_app, energy_zeros, Rplus_0_r. unfold chirp. rewrite energy_cis, seq_length. unfold energy, chirp_samples, rate_of. rewrite mult_INR, Rmult_assoc. reflexivity.
Qed.
Print Assumptions C92_energy.

(** If chirp durations and pulse intervals are whole numbers of samples, each interval of the frame starts with the same chirp, followed by silence, and the
    frame has the advertised number of samples. A chirp longer than its interval is refused. *)
Theorem C92_frame : forall w b o c p, (chirp_duration w * rate_of b o = INR c)%R -> (interval w * rate_of b o = INR p)%R ->
  (c <= p -> exists s, ping w b o = Ok s /\ length s = samples_per_frame w b o /\ length s = num_chirps w * p /\
     forall r l, r < num_chirps w -> l < p -> received p s r l = if l <? c then cis (chirp_phase w b (INR l / rate_of b o)) else RtoC 0) /\
  (p < c -> ping w b o = Raise RuntimeError).
Proof.
  intros w b o c p Hc Hp. split; intro H.
  - assert (P := pulse_aligned w b o c p Hc Hp H). exists (concat (repeat (chirp w b o ++ repeat (RtoC 0) (p - c)) (num_chirps w))).
    assert (E : ping w b o = Ok (concat (repeat (chirp w b o ++ repeat (RtoC 0) (p - c)) (num_chirps w)))) by (unfold ping; rewrite P; reflexivity).
    destruct (ping_layout w b o c p _ Hc Hp H E) as [L G]. split; [exact E|split; [|split; [exact L|]]].
    + rewrite L. unfold samples_per_frame, frame_duration. replace (interval w * INR (num_chirps w) * b * INR o)%R with (INR (num_chirps w * p)). { rewrite truncate_nat, Nat2Z.id. reflexivity. }
      rewrite mult_INR, <- Hp. unfold rate_of. ring.
    + intros r l Hr Hl. unfold received. rewrite G by assumption. destruct (Nat.ltb_spec l c) as [A|A].
      * apply at0_chirp. rewrite (chirp_aligned w b o c Hc). exact A.
      * apply at0_out. rewrite length_chirp, (chirp_aligned w b o c Hc). exact A.
  - unfold ping, pulse. replace ((interval w - chirp_duration w) * b * INR o)%R with (interval w * rate_of b o - chirp_duration w * rate_of b o)%R by (unfold rate_of; ring). rewrite Hc, Hp.
    assert (T : truncate (INR p - INR c) = (- Z.of_nat (c - p))%Z).
    { unfold truncate. assert (L : (INR p < INR c)%R) by (apply lt_INR; exact H). destruct (Rle_dec 0 (INR p - INR c)); [lra|]. replace (- (INR p - INR c))%R with (INR (c - p)) by (rewrite minus_INR by lia; ring).
      assert (Q := truncate_nat (c - p)). unfold truncate in Q. destruct (Rle_dec 0 (INR (c - p))) as [_|N]; [rewrite Q; reflexivity|]. exfalso. apply N. apply pos_INR. }
    rewrite T. destruct (Z.ltb_spec (- Z.of_nat (c - p)) 0); [reflexivity|lia].
Qed.
Print Assumptions C92_frame.

(** Chirps that do not last whole numbers of samples are repeated too early: here the estimator expects three samples per interval, but only two are sent. *)
Theorem C92_frame_refuted : exists w b o s, 2 <= num_chirps w /\ (chirp_duration w <= interval w)%R /\ (interval w * rate_of b o = 3)%R /\ ping w b o = Ok s /\ length s = 2 * num_chirps w /\ samples_per_frame w b o = 3 * num_chirps w.
Proof.
  assert (T1 : truncate (3 / 2 * rate_of 1 1) = 1%Z) by (apply (truncate_between _ 1); unfold rate_of; cbn [INR]; lra).
  assert (T2 : truncate ((3 - 3 / 2) * 1 * INR 1) = 1%Z) by (apply (truncate_between _ 1); cbn [INR]; lra).
  exists (mkFmcw 2 (3 / 2) 3 0), 1%R, 1, (concat (repeat (chirp (mkFmcw 2 (3 / 2) 3 0) 1 1 ++ repeat (RtoC 0) 1) 2)). cbn [num_chirps chirp_duration interval].
  split; [lia|]. split; [lra|]. split; [unfold rate_of; cbn [INR]; lra|]. split; [|split].
  - unfold ping, pulse. cbn [interval chirp_duration num_chirps]. rewrite T2. reflexivity.
  - rewrite Blk_Proofs.length_concat_repeat, app_length, length_chirp. unfold chirp_samples. cbn [chirp_duration]. rewrite T1. reflexivity.
  - unfold samples_per_frame, frame_duration. cbn [interval num_chirps]. replace (3 * INR 2 * 1 * INR 1)%R with (INR 6) by (cbn [INR]; lra). rewrite truncate_nat. reflexivity.
Qed.
Print Assumptions C92_frame_refuted.

(** Chirps slightly longer than their interval are transmitted, although they can never be processed. *)
Theorem C92_overlong_chirps_refuted : exists w b o s filter, make_fmcw (num_chirps w) (chirp_duration w) (interval w) (adc_rate w) = Ok w /\
  (interval w < chirp_duration w)%R /\ ping w b o = Ok s /\ estimate filter w b o s = Raise ValueError.
Proof.
  set (w := mkFmcw 2 1 (1 / 2) 0).
  assert (T1 : truncate (1 / 2 * rate_of 1 1) = 0%Z) by (apply (truncate_between _ 0); unfold rate_of; cbn [INR]; lra).
  assert (T2 : truncate ((1 / 2 - 1) * 1 * INR 1) = 0%Z).
  { unfold truncate. cbn [INR]. destruct (Rle_dec 0 ((1 / 2 - 1) * 1 * 1)); [lra|]. assert (Q : truncate (- ((1 / 2 - 1) * 1 * 1)) = 0%Z) by (apply (truncate_between _ 0); cbn [INR]; lra).
    unfold truncate in Q. destruct (Rle_dec 0 (- ((1 / 2 - 1) * 1 * 1))); [rewrite Q; reflexivity|lra]. }
  exists w, 1%R, 1, (concat (repeat (chirp w 1 1 ++ repeat (RtoC 0) 0) 2)), (fun l => l). unfold w. cbn [num_chirps chirp_duration interval adc_rate]. split; [|split; [lra|split]].
  - unfold make_fmcw, Rleb, Rltb. cbn. destruct (Rle_dec 1 0); [lra|]. destruct (Rle_dec (1 / 2) 0); [lra|]. destruct (Rlt_dec 0 0); [lra|]. reflexivity.
  - unfold ping, pulse. cbn [interval chirp_duration num_chirps]. rewrite T2. reflexivity.
  - unfold estimate. cbn [interval]. rewrite T1. reflexivity.
Qed.
Print Assumptions C92_overlong_chirps_refuted.

(** ** Doppler *)
Theorem C92_moving_scene : forall filter w b o x e z u k, homogeneous filter ->
  (0 < b)%R -> (0 < chirp_duration w)%R -> (chirp_duration w <= interval w)%R -> u < num_chirps w ->
  estimate filter w b o x = Ok e ->
  moving_scene (Z.to_nat (truncate (interval w * rate_of b o))) (num_chirps w) (interval w) (IZR z / frame_duration w) x ->
  (z <= Z.of_nat (num_chirps w - num_chirps w / 2))%Z -> (Z.of_nat (num_chirps w - num_chirps w / 2) - z < Z.of_nat (num_chirps w))%Z ->
  e u k <> 0%R -> nth_error (relative_doppler_bins w) u = Some (- (IZR z / frame_duration w) / 2 + INR (num_chirps w mod 2) / (4 * frame_duration w))%R.
Proof.
  intros filter w b o x e z u k Hf Hb Ht Hi Hu E M Z1 Z2 Hne. assert (N : (0 < INR (num_chirps w))%R) by (apply lt_0_INR; lia).
  destruct (estimate_inv filter w b o x e Hb Ht Hi E) as (P0 & N0 & Ee). assert (F := chirp_fits w b o Hb Ht Hi). fold (interval_samples w b o) in M.
  apply doppler_label; [lia|lra|exact Hu|]. apply doppler_row; [lia|exact Hu|exact Z1|exact Z2|].
  destruct (Z.eq_dec ((z + Z.of_nat (unshift (num_chirps w) u)) mod Z.of_nat (num_chirps w)) 0) as [Q|Q]; [exact Q|]. exfalso. apply Hne. rewrite Ee.
  set (y := map filter (map (beats w b o (interval_samples w b o) x) (seq 0 (num_chirps w)))). assert (Ly : length y = num_chirps w) by (unfold y; rewrite !map_length, seq_length; reflexivity).
  rewrite (fft2_rows y _ z).
  - rewrite Ly. apply Z.eqb_neq in Q. rewrite Q, Cmod_0. ring.
  - lia.
  - rewrite Ly. apply unshift_lt. lia.
  - intros r c Hr Hc. rewrite Ly in *. unfold y. rewrite !nth_rows by lia.
    rewrite (beats_scaled w b o _ x r (cis (2 * PI * (IZR z / frame_duration w) * (INR r * interval w)))).
    + rewrite Hf, at0_map_mult, conj_cis. f_equal. f_equal. unfold frame_duration. field. lra.
    + intros n Hn. apply (M r n); lia.
Qed.
Print Assumptions C92_moving_scene.

(** Without movement, all power is in the row labelled zero, whatever filter is applied, if the number of chirps is even. *)
Theorem C92_static_scene : forall filter w b o x e u k,
  (0 < b)%R -> (0 < chirp_duration w)%R -> (chirp_duration w <= interval w)%R -> 2 <= num_chirps w -> u < num_chirps w ->
  estimate filter w b o x = Ok e -> static_scene (Z.to_nat (truncate (interval w * rate_of b o))) (num_chirps w) x ->
  e u k <> 0%R -> nth_error (relative_doppler_bins w) u = Some (INR (num_chirps w mod 2) / (4 * frame_duration w))%R.
Proof.
  intros filter w b o x e u k Hb Ht Hi Hn Hu E M Hne. assert (N : (0 < INR (num_chirps w))%R) by (apply lt_0_INR; lia).
  destruct (estimate_inv filter w b o x e Hb Ht Hi E) as (P0 & N0 & Ee). assert (F := chirp_fits w b o Hb Ht Hi). fold (interval_samples w b o) in M.
  replace (INR (num_chirps w mod 2) / (4 * frame_duration w))%R with (- (IZR 0 / frame_duration w) / 2 + INR (num_chirps w mod 2) / (4 * frame_duration w))%R by (unfold frame_duration; field; lra).
  assert (D : 1 <= num_chirps w / 2) by (apply Nat.div_le_lower_bound; lia).
  apply doppler_label; [lia|lra|exact Hu|]. apply doppler_row; [lia|exact Hu|lia|lia|].
  destruct (Z.eq_dec ((0 + Z.of_nat (unshift (num_chirps w) u)) mod Z.of_nat (num_chirps w)) 0) as [Q|Q]; [exact Q|]. exfalso. apply Hne. rewrite Ee.
  set (y := map filter (map (beats w b o (interval_samples w b o) x) (seq 0 (num_chirps w)))). assert (Ly : length y = num_chirps w) by (unfold y; rewrite !map_length, seq_length; reflexivity).
  rewrite (fft2_rows y _ 0).
  - rewrite Ly. apply Z.eqb_neq in Q. rewrite Q, Cmod_0. ring.
  - lia.
  - rewrite Ly. apply unshift_lt. lia.
  - intros r c Hr Hc. rewrite Ly in *. unfold y. rewrite !nth_rows by lia. rewrite (beats_same w b o _ x r); [|intros n Hn'; apply M; lia].
    replace (- (2 * PI * 0 * INR r / INR (num_chirps w)))%R with 0%R by (field; lra). rewrite cis_0. ring.
Qed.
Print Assumptions C92_static_scene.

(** ** Range *)
Lemma num_bins_aligned : forall w b o n, (0 < b)%R -> 1 <= o -> (0 < chirp_duration w)%R -> (chirp_duration w * b = INR n)%R -> (adc_rate w = 0 \/ 0 < adc_rate w < rate_of b o)%R -> num_bins w b o = n.
Proof.
  intros w b o n Hb Ho Ht Hn Ha. unfold num_bins. assert (T : forall a, (a = if Rltb 0 (adc_rate w) then adc_rate w else b) -> Z.to_nat (truncate (max_range w a / range_resolution b)) = n).
  { intros a A. unfold max_range. assert (A0 : (0 < a)%R). { rewrite A. unfold Rltb. destruct (Rlt_dec 0 (adc_rate w)); lra. }
    replace ((if Rltb 0 (adc_rate w) then adc_rate w else a) * speed_of_light / (2 * a / chirp_duration w) / range_resolution b)%R with (INR n). { rewrite truncate_nat. apply Nat2Z.id. }
    rewrite <- Hn. unfold range_resolution, speed_of_light. replace (if Rltb 0 (adc_rate w) then adc_rate w else a) with a; [field; lra|]. rewrite A. destruct (Rltb 0 (adc_rate w)); reflexivity. }
  apply T. unfold Rltb. destruct (Rlt_dec 0 (adc_rate w)); destruct (Rlt_dec (adc_rate w) (rate_of b o)); try reflexivity. lra.
Qed.

(** The echo of the transmitted frame has its strongest cell in the row without Doppler and in the range cell [k], in which [k] follows from the delay in samples,
    the factor by which the analog-to-digital conversion reduces the sampling rate and the oversampling factor. *)
Theorem C92_range_cell : forall w b o n p s g m k q L x,
  (0 < b)%R -> 1 <= o -> (0 < chirp_duration w)%R -> 2 <= num_chirps w -> (adc_rate w = 0 \/ 0 < adc_rate w < rate_of b o)%R ->
  (chirp_duration w * b = INR n)%R -> (interval w * rate_of b o = INR p)%R -> n * o + m <= p ->
  ping w b o = Ok s -> echo s g m x -> o <= q -> q * L = n * o -> m * q = k * (o * o) -> k < n -> m + q <= n * o ->
  exists e u, estimate (every q) w b o x = Ok e /\ u < num_chirps w /\ nth_error (relative_doppler_bins w) u = Some (INR (num_chirps w mod 2) / (4 * frame_duration w))%R /\
    k < num_bins w b o /\ e u k = ((Cmod g * INR (num_chirps w) * INR (L - ceil_div m q)) ^ 2)%R /\ (g <> RtoC 0 -> (0 < e u k)%R) /\
    forall u' k', u' < num_chirps w -> (e u' k' <= e u k)%R.
Proof.
  intros w b o n p s g m k q L x Hb Ho Ht Hc Ha Hn Hp H E He Hq HL Hk Hkn Hm. assert (N : (0 < INR (num_chirps w))%R) by (apply lt_0_INR; lia). assert (q0 : 0 < q) by lia.
  assert (O : (0 < INR o)%R) by (apply lt_0_INR; lia).
  assert (n0 : 0 < n) by nia. assert (Nb := num_bins_aligned w b o n Hb Ho Ht Hn Ha).
  assert (Hcs : (chirp_duration w * rate_of b o = INR (n * o))%R) by (unfold rate_of; rewrite mult_INR, <- Hn; ring).
  assert (P : (0 < interval w)%R). { assert (R0 : (0 < rate_of b o)%R) by (unfold rate_of; apply Rmult_lt_0_compat; lra). apply Rmult_lt_reg_r with (rate_of b o); [exact R0|]. rewrite Rmult_0_l, Hp. apply lt_0_INR. nia. }
  set (y := map (every q) (map (beats w b o p x) (seq 0 (num_chirps w)))). assert (Ly : length y = num_chirps w) by (unfold y; rewrite !map_length, seq_length; reflexivity).
  assert (Ee : estimate (every q) w b o x = Ok (fun u j => Cmod (fft2 y (num_bins w b o) (unshift (num_chirps w) u) j) ^ 2)%R).
  { apply estimate_ok; [rewrite Hp; apply truncate_nat|nia|rewrite (chirp_aligned w b o _ Hcs); lia|lia]. }
  set (h := ceil_div m q) in *. assert (Hh : 1 <= L - h).
  { destruct (ceil_div_spec m q q0) as [A B]. fold h in A, B. assert (L1 : 1 <= L) by nia. specialize (B (L - 1)). replace L with (S (L - 1)) in HL by lia. rewrite Nat.mul_succ_r in HL. rewrite (Nat.mul_comm (L - 1) q) in B. specialize (B ltac:(lia)). lia. }
  assert (Hk' : m * q = k * o * o) by lia. assert (D : 1 <= num_chirps w / 2) by (apply Nat.div_le_lower_bound; lia). assert (D' : num_chirps w / 2 < num_chirps w) by (apply Nat.div_lt; lia).
  assert (S0 := fun j => spectrum w b o n p s g m k q L x j Hb Ho Ht Hn Hp H E He Hk' q0 HL ltac:(lia) Hq ltac:(lia)). fold h in S0.
  assert (V : forall u j, u < num_chirps w -> (Cmod (fft2 y n (unshift (num_chirps w) u) j) ^ 2 =
     if (Z.of_nat (unshift (num_chirps w) u) mod Z.of_nat (num_chirps w) =? 0)%Z then (INR (num_chirps w) * (Cmod g * Cmod (csum (fun i => cis (turn n k (h + i) - turn n j (h + i))) (L - h)))) ^ 2 else 0)%R).
  { intros u j Hu. rewrite (fft2_rows y n 0).
    - rewrite Ly, Z.add_0_l. destruct (_ =? 0)%Z; [|rewrite Cmod_0; ring]. unfold y. rewrite nth_rows by lia. rewrite S0, !Cmod_mult, Mf_Proofs.Cmod_conj, tone_modulus, Cmod_R, Rabs_pos_eq by lra. rewrite Rmult_1_r. reflexivity.
    - lia.
    - rewrite Ly. apply unshift_lt. lia.
    - intros r c Hr Hc'. rewrite Ly in *. unfold y. rewrite !nth_rows by lia. rewrite !(sampled_row w b o n p s g m k q L x) by (assumption || lia).
      replace (- (2 * PI * 0 * INR r / INR (num_chirps w)))%R with 0%R by (field; lra). rewrite cis_0. ring. }
  set (u := num_chirps w - num_chirps w / 2). assert (Hu : u < num_chirps w) by (unfold u; lia).
  assert (Q : (Z.of_nat (unshift (num_chirps w) u) mod Z.of_nat (num_chirps w) =? 0)%Z = true). { apply Z.eqb_eq. apply (doppler_row_conv (num_chirps w) 0 u); [lia|]. unfold u. lia. }
  assert (Vk : (Cmod (fft2 y n (unshift (num_chirps w) u) k) ^ 2 = (Cmod g * INR (num_chirps w) * INR (L - h)) ^ 2)%R).
  { rewrite V, Q by exact Hu. rewrite (csum_ext _ (fun _ => RtoC 1)) by (intros i _; unfold Rminus; rewrite Rplus_opp_r; apply cis_0). rewrite csum_const, Cmult_1_r, Cmod_R, Rabs_pos_eq by apply pos_INR. f_equal. ring. }
  rewrite Nb in Ee. exists (fun u j => Cmod (fft2 y n (unshift (num_chirps w) u) j) ^ 2)%R, u. cbv beta. rewrite Nb.
  split; [exact Ee|split; [exact Hu|split; [|split; [exact Hkn|split; [exact Vk|split]]]]].
  - replace (INR (num_chirps w mod 2) / (4 * frame_duration w))%R with (- (IZR 0 / frame_duration w) / 2 + INR (num_chirps w mod 2) / (4 * frame_duration w))%R by (unfold frame_duration; field; lra).
    apply doppler_label; [lia|exact P|exact Hu|]. unfold u. lia.
  - intro G. rewrite Vk. assert (G0 : (0 < Cmod g)%R) by (apply Cmod_gt_0; exact G). assert (L0 : (0 < INR (L - h))%R) by (apply lt_0_INR; lia). apply pow_lt. apply Rmult_lt_0_compat; [apply Rmult_lt_0_compat; lra|lra].
  - intros u' k' Hu'. rewrite Vk, V by exact Hu'. destruct (Z.eqb (Z.of_nat (unshift (num_chirps w) u') mod Z.of_nat (num_chirps w)) 0); [|apply pow2_ge_0]. apply pow_incr. split.
    + apply Rmult_le_pos; [lra|]. apply Rmult_le_pos; apply Cmod_ge_0.
    + rewrite (Rmult_comm (Cmod g) (INR (num_chirps w))), Rmult_assoc. apply Rmult_le_compat_l; [lra|]. apply Rmult_le_compat_l; [apply Cmod_ge_0|]. apply csum_cis_bound.
Qed.
Print Assumptions C92_range_cell.

(** The label of that range cell is the distance of the reflecting object, stretched by a factor [n / (n - 1)], since the labels include the end of the range,
    and by the ratio between bandwidth and converter rate if a converter rate is configured. *)
Theorem C92_range_label : forall w b o n m k q,
  (0 < b)%R -> 1 <= o -> (0 < chirp_duration w)%R -> (chirp_duration w * b = INR n)%R -> 2 <= n -> (0 <= adc_rate w)%R ->
  (rate_of b o = INR q * (if Rltb 0 (adc_rate w) then adc_rate w else b))%R -> m * q = k * (o * o) -> k < n ->
  nth_error (range_bins w b) k = Some (distance (INR m / rate_of b o) * (b / (if Rltb 0 (adc_rate w) then adc_rate w else b)) * (INR n / (INR n - 1)))%R.
Proof.
  intros w b o n m k q Hb Ho Ht Hn Hn2 Ha Hq Hk Hkn. assert (O : (0 < INR o)%R) by (apply lt_0_INR; lia). set (a := if Rltb 0 (adc_rate w) then adc_rate w else b) in *.
  assert (A0 : (0 < a)%R) by (unfold a, Rltb; destruct (Rlt_dec 0 (adc_rate w)); lra). assert (N2 : (2 <= INR n)%R) by (apply (le_INR 2); exact Hn2).
  unfold range_bins. assert (A : (if Rleb (adc_rate w) 0 then b else adc_rate w) = a). { unfold a, Rleb, Rltb. destruct (Rle_dec (adc_rate w) 0); destruct (Rlt_dec 0 (adc_rate w)); lra || reflexivity. }
  rewrite A. assert (M : max_range w a = (speed_of_light * chirp_duration w / 2)%R). { unfold max_range. replace (if Rltb 0 (adc_rate w) then adc_rate w else a) with a; [field; lra|]. unfold a. destruct (Rltb 0 (adc_rate w)); reflexivity. }
  rewrite M. replace (speed_of_light * chirp_duration w / 2 / range_resolution b)%R with (INR n). 2:{ rewrite <- Hn. unfold range_resolution, speed_of_light. field. lra. }
  rewrite truncate_nat, Nat2Z.id. unfold linspace. rewrite nth_error_map', nth_error_seq. destruct (Nat.ltb_spec k n); [|lia]. cbn [option_map Nat.add]. destruct (Nat.eqb_spec n 1); [lia|]. f_equal.
  rewrite minus_INR by lia. cbn [INR]. unfold distance.
  assert (K : (INR m * INR q = INR k * INR o ^ 2)%R) by (cbn [pow]; rewrite Rmult_1_r, <- !mult_INR, Hk; reflexivity).
  assert (Q : INR q = (b * INR o / a)%R). { unfold rate_of in Hq. rewrite Hq. field. lra. }
  assert (Km : INR k = (INR m * b / (INR o * a))%R). { apply Rmult_eq_reg_r with (INR o ^ 2)%R; [|apply pow_nonzero; lra]. rewrite <- K, Q. field. lra. }
  rewrite Km. unfold rate_of. rewrite <- Hn. field. rewrite Hn. lra.
Qed.
Print Assumptions C92_range_label.

(** So the labels of range cells are not the distances of objects. *)
Theorem C92_range_label_refuted : exists w b o m, (0 < b)%R /\ adc_rate w = 0%R /\ num_bins w b o = 2 /\ m < 2 /\ nth_error (range_bins w b) m = Some (2 * distance (INR m / rate_of b o))%R /\ (0 < distance (INR m / rate_of b o))%R.
Proof.
  exists (mkFmcw 2 2 4 0), 1%R, 1, 1. assert (N : num_bins (mkFmcw 2 2 4 0) 1 1 = 2) by (apply num_bins_aligned; cbn [chirp_duration adc_rate INR]; lra || lia || (left; reflexivity)).
  split; [lra|]. split; [reflexivity|]. split; [exact N|]. split; [lia|]. assert (R1 : rate_of 1 1 = 1%R) by (unfold rate_of; cbn [INR]; lra). split.
  - rewrite (C92_range_label (mkFmcw 2 2 4 0) 1 1 2 1 1 1); cbn [chirp_duration adc_rate]; try lia; try lra.
    + f_equal. unfold Rltb. destruct (Rlt_dec 0 0); [lra|]. rewrite R1. cbn [INR]. field.
    + cbn [INR]. lra.
    + unfold Rltb. destruct (Rlt_dec 0 0); [lra|]. rewrite R1. cbn [INR]. lra.
  - rewrite R1. unfold distance, speed_of_light. cbn [INR]. lra.
Qed.
Print Assumptions C92_range_label_refuted.

(** The advertised maximum range is the last label if the converter rate is not configured, and not otherwise. *)
Theorem C92_advertised_range : forall w b n, (0 < b)%R -> (0 < chirp_duration w)%R -> (0 <= adc_rate w)%R -> (chirp_duration w * b = INR n)%R -> 2 <= n ->
  nth_error (range_bins w b) (n - 1) = Some (speed_of_light * chirp_duration w / 2)%R /\ length (range_bins w b) = n /\ (adc_rate w = 0%R \/ adc_rate w = b <-> max_range w b = (speed_of_light * chirp_duration w / 2)%R).
Proof.
  intros w b n Hb Ht Ha Hn Hn2. assert (N2 : (2 <= INR n)%R) by (apply (le_INR 2); exact Hn2). set (a := if Rltb 0 (adc_rate w) then adc_rate w else b) in *.
  assert (A0 : (0 < a)%R) by (unfold a, Rltb; destruct (Rlt_dec 0 (adc_rate w)); lra).
  assert (A : (if Rleb (adc_rate w) 0 then b else adc_rate w) = a). { unfold a, Rleb, Rltb. destruct (Rle_dec (adc_rate w) 0); destruct (Rlt_dec 0 (adc_rate w)); lra || reflexivity. }
  assert (M : max_range w a = (speed_of_light * chirp_duration w / 2)%R). { unfold max_range. replace (if Rltb 0 (adc_rate w) then adc_rate w else a) with a; [field; lra|]. unfold a. destruct (Rltb 0 (adc_rate w)); reflexivity. }
  assert (B : range_bins w b = linspace 0 (speed_of_light * chirp_duration w / 2) n).
  { unfold range_bins. rewrite A, M. replace (speed_of_light * chirp_duration w / 2 / range_resolution b)%R with (INR n). { rewrite truncate_nat, Nat2Z.id. reflexivity. } rewrite <- Hn. unfold range_resolution, speed_of_light. field. lra. }
  rewrite B. split; [|split].
  - unfold linspace. rewrite nth_error_map', nth_error_seq. destruct (Nat.ltb_spec (n - 1) n); [|lia]. cbn [option_map Nat.add]. destruct (Nat.eqb_spec n 1); [lia|]. f_equal. field. rewrite minus_INR by lia. cbn [INR]. lra.
  - unfold linspace. rewrite map_length, seq_length. reflexivity.
  - unfold max_range. assert (S0 : (0 < speed_of_light)%R) by (unfold speed_of_light; lra). unfold Rltb. destruct (Rlt_dec 0 (adc_rate w)) as [P|P].
    + split; [intros [Q|Q]; [lra|]; rewrite Q; field; lra|]. intro Q. right. apply Rmult_eq_reg_r with (speed_of_light / (2 * b / chirp_duration w))%R; [|apply Rgt_not_eq; apply Rdiv_lt_0_compat; [exact S0|apply Rdiv_lt_0_compat; lra]].
      transitivity (speed_of_light * chirp_duration w / 2)%R; [rewrite <- Q; unfold Rdiv; ring|field; lra].
    + split; intro Q; [field; lra|left; lra].
Qed.
Print Assumptions C92_advertised_range.

(** ** Advertised velocity resolution *)
(** Neighbouring cells of the Doppler axis, converted to velocities, are twice the advertised velocity resolution apart. *)
Theorem C92_velocity_resolution_refuted : forall filter w rmin b o carrier angles lines c vs i v v' r,
  (0 < carrier)%R -> (0 < interval w)%R -> receive filter w rmin b o carrier angles lines = Ok c -> velocity_bins c = Ok vs ->
  nth_error vs i = Some v -> nth_error vs (S i) = Some v' -> velocity_resolution w carrier = Ok r -> (0 < r)%R /\ (v' - v = 2 * r)%R.
Proof.
  intros filter w rmin b o carrier angles lines c vs i v v' r Hc Hi H Hv E E' Hr. unfold receive in H. destruct (mapM _ lines) as [es|]; [|discriminate]. cbn [bind] in H. destruct (existsb _ _); [discriminate|].
  assert (D : doppler_bins c = relative_doppler_bins w /\ carrier_frequency c = carrier).
  { unfold make_cube in H. cbn [bind] in H. repeat match type of H with (if ?t then _ else _) = _ => destruct t; try discriminate end. injection H as <-. cbn [doppler_bins carrier_frequency]. auto. }
  destruct D as [D1 D2]. unfold velocity_bins in Hv. rewrite D1, D2 in Hv. destruct (Rleb carrier 0); [discriminate|]. injection Hv as <-.
  unfold relative_doppler_bins in E, E'. rewrite map_map, nth_error_map', nth_error_seq in E, E'.
  destruct (Nat.ltb_spec i (num_chirps w)) as [L|L]; [|discriminate]. destruct (Nat.ltb_spec (S i) (num_chirps w)) as [L'|L']; [|discriminate]. cbn [option_map Nat.add] in E, E'.
  assert (V : v = ((INR i * relative_doppler_resolution w - max_relative_doppler w) * speed_of_light / carrier)%R) by congruence.
  assert (V' : v' = ((INR (S i) * relative_doppler_resolution w - max_relative_doppler w) * speed_of_light / carrier)%R) by congruence.
  unfold velocity_resolution in Hr. destruct (Req_EM_T carrier 0); [discriminate|]. assert (R0 : r = (1 / 2 * relative_doppler_resolution w * speed_of_light / carrier)%R) by congruence.
  assert (N : (0 < INR (num_chirps w))%R) by (apply lt_0_INR; lia). split.
  - rewrite R0. unfold relative_doppler_resolution, frame_duration, speed_of_light. assert (Q : (0 < 2 * (interval w * INR (num_chirps w)))%R) by (apply Rmult_lt_0_compat; [lra|apply Rmult_lt_0_compat; lra]).
    apply Rdiv_lt_0_compat; [|exact Hc]. apply Rmult_lt_0_compat; [|lra]. apply Rmult_lt_0_compat; [lra|]. apply Rdiv_lt_0_compat; lra.
  - rewrite V, V', R0, S_INR. field. lra.
Qed.
Print Assumptions C92_velocity_resolution_refuted.

(** ** The hypotheses can be met *)
Lemma an_echo : forall s g m, echo s g m (repeat (RtoC 0) m ++ map (Cmult g) s).
Proof.
  intros s g m l. unfold at0. destruct (Nat.leb_spec m l) as [A|A].
  - rewrite app_nth2 by (rewrite repeat_length; exact A). rewrite repeat_length. apply at0_map_mult.
  - rewrite app_nth1 by (rewrite repeat_length; exact A). apply nth_repeat.
Qed.
(** Four samples per chirp, ten per interval, a delay of two samples *)
Example range_cell_met : exists e u x, estimate (every 1) (mkFmcw 2 4 10 0) 1 1 x = Ok e /\ e u 2 = ((2 * 2 * 2) ^ 2)%R /\ nth_error (relative_doppler_bins (mkFmcw 2 4 10 0)) u = Some 0%R /\ forall u' k', u' < 2 -> (e u' k' <= e u 2%nat)%R.
Proof.
  set (w := mkFmcw 2 4 10 0). assert (R1 : rate_of 1 1 = 1%R) by (unfold rate_of; cbn [INR]; lra).
  assert (Hc : (chirp_duration w * rate_of 1 1 = INR 4)%R) by (rewrite R1; cbn; lra). assert (Hp : (interval w * rate_of 1 1 = INR 10)%R) by (rewrite R1; cbn; lra).
  destruct (proj1 (C92_frame w 1 1 4 10 Hc Hp) ltac:(lia)) as (s & E & _).
  destruct (C92_range_cell w 1 1 4 10 s (RtoC 2) 2 2 1 4 (repeat (RtoC 0) 2 ++ map (Cmult (RtoC 2)) s)) as (e & u & E' & U & D & _ & V & _ & M); try apply an_echo; try assumption; try (unfold w; cbn [num_chirps]; lia); try (cbn; lra); try (right; rewrite R1; cbn; lra).
  exists e, u, (repeat (RtoC 0) 2 ++ map (Cmult (RtoC 2)) s). split; [exact E'|split; [|split; [|exact M]]].
  - rewrite V. rewrite Cmod_R, Rabs_pos_eq by lra. cbn. reflexivity.
  - rewrite D. f_equal. unfold frame_duration. cbn. lra.
Qed.
(** A converter at half the bandwidth places the same echo in the fourth of eight cells *)
Example converter_met : exists e u x, estimate (every 2) (mkFmcw 2 8 20 (1 / 2)) 1 1 x = Ok e /\ (0 < e u 4%nat)%R /\ forall u' k', u' < 2 -> (e u' k' <= e u 4%nat)%R.
Proof.
  set (w := mkFmcw 2 8 20 (1 / 2)). assert (R1 : rate_of 1 1 = 1%R) by (unfold rate_of; cbn [INR]; lra).
  assert (Hc : (chirp_duration w * rate_of 1 1 = INR 8)%R) by (rewrite R1; cbn; lra). assert (Hp : (interval w * rate_of 1 1 = INR 20)%R) by (rewrite R1; cbn; lra).
  destruct (proj1 (C92_frame w 1 1 8 20 Hc Hp) ltac:(lia)) as (s & E & _).
  destruct (C92_range_cell w 1 1 8 20 s (RtoC 2) 2 4 2 4 (repeat (RtoC 0) 2 ++ map (Cmult (RtoC 2)) s)) as (e & u & E' & U & D & _ & V & G & M); try apply an_echo; try assumption; try (unfold w; cbn [num_chirps]; lia); try (cbn; lra); try (right; rewrite R1; cbn; lra).
  exists e, u, (repeat (RtoC 0) 2 ++ map (Cmult (RtoC 2)) s). split; [exact E'|split; [|exact M]]. apply G. intro Q. injection Q as Q. lra.
Qed.
Example moving_met : exists w x e u, num_chirps w = 4 /\ moving_scene (Z.to_nat (truncate (interval w * rate_of 1 1))) 4 (interval w) (IZR 1 / frame_duration w) x /\ estimate (fun l => l) w 1 1 x = Ok e /\ u < 4 /\ nth_error (relative_doppler_bins w) u = Some (- 1 / 8)%R.
Proof.
  set (w := mkFmcw 4 1 1 0). assert (R1 : rate_of 1 1 = 1%R) by (unfold rate_of; cbn [INR]; lra). assert (P1 : truncate (interval w * rate_of 1 1) = Z.of_nat 1) by (apply truncate_between; rewrite R1; cbn; lra).
  set (x := map (fun r => cis (2 * PI * (IZR 1 / frame_duration w) * (INR r * interval w))) (seq 0 4)).
  assert (C1 : chirp_samples w 1 1 = 1) by (apply chirp_aligned; rewrite R1; cbn; lra).
  assert (N : num_bins w 1 1 = 1) by (apply num_bins_aligned; cbn; lra || lia).
  exists w, x. eexists. exists 1. split; [reflexivity|]. split; [|split; [apply (estimate_ok _ w 1 1 x 1 P1); lia|split; [lia|]]].
  - rewrite P1, Nat2Z.id. intros r n Hr Hn. assert (n = 0) by lia. subst n. unfold received, x. rewrite !Sc_Proofs.at0_map_seq. replace (r * 1 + 0) with r by lia. replace (0 * 1 + 0) with 0 by lia.
    destruct (Nat.ltb_spec r 4); [|lia]. cbn [Nat.ltb Nat.leb INR]. rewrite Rmult_0_l, Rmult_0_r, cis_0. ring.
  - unfold relative_doppler_bins. cbn. f_equal. unfold relative_doppler_resolution, max_relative_doppler, frame_duration. cbn. lra.
Qed.

(** ** Checks *)
(** Waveforms exist exactly for at least one chirp, positive durations and intervals, and sampling rates that are not negative. *)
Theorem C92_parameters : forall n duration pri adc,
  (1 <= n /\ (0 < duration)%R /\ (0 < pri)%R /\ (0 <= adc)%R -> make_fmcw n duration pri adc = Ok (mkFmcw n duration pri adc)) /\
  (~ (1 <= n /\ (0 < duration)%R /\ (0 < pri)%R /\ (0 <= adc)%R) -> make_fmcw n duration pri adc = Raise ValueError).
Proof.
  intros n d p a. unfold make_fmcw, Rleb, Rltb. split; intro H; destruct (Nat.ltb_spec n 1); destruct (Rle_dec d 0); destruct (Rle_dec p 0); destruct (Rlt_dec a 0); try reflexivity; exfalso.
  all: try (destruct H as (H1 & H2 & H3 & H4); lia || lra).
  apply H. repeat split; lia || lra.
Qed.
Print Assumptions C92_parameters.
Example C92_parameters_met : 1 <= 3 /\ (0 < 2)%R /\ (0 < 4)%R /\ (0 <= 0)%R.
Proof. repeat split; lia || lra. Qed.

(** Frames are transmitted over a single antenna port only. *)
Theorem C92_single_antenna : forall w b o ports s, ping w b o = Ok s ->
  (ports <= 1 -> transmit w b o ports = Ok s) /\ (2 <= ports -> transmit w b o ports = Raise RuntimeError).
Proof. intros w b o ports s H. unfold transmit. rewrite H. cbn [bind]. split; intro P; destruct (Nat.ltb_spec 1 ports); reflexivity || lia. Qed.
Print Assumptions C92_single_antenna.

(** A cube shows exactly the range bins of the waveform that are not closer than the minimum range. *)
Theorem C92_minimum_range : forall filter w rmin b o f angles lines c, receive filter w rmin b o f angles lines = Ok c ->
  Radar_Model.range_bins c = List.filter (fun r => if Rle_dec rmin r then true else false) (range_bins w b).
Proof.
  intros filter w rmin b o f angles lines c H. unfold receive in H. destruct (mapM _ lines); [|discriminate]. cbn [bind] in H. destruct (existsb _ _); [discriminate|].
  unfold make_cube in H. cbn [bind] in H. destruct (negb _); [discriminate|]. destruct (negb _); [discriminate|]. destruct (negb _); [discriminate|]. destruct (Rltb f 0); [discriminate|].
  injection H as <-. cbn [Radar_Model.range_bins]. generalize (range_bins w b) as l. clear. intro l.
  assert (G : forall pre, map (fun i => nth i (pre ++ l) 0%R) (List.filter (fun i => Rleb rmin (nth i (pre ++ l) 0%R)) (seq (length pre) (length l)))
    = List.filter (fun r => if Rle_dec rmin r then true else false) l); [|exact (G [])].
  induction l as [|x t IH]; intro pre; [reflexivity|]. cbn [length seq List.filter].
  assert (X : nth (length pre) (pre ++ x :: t) 0%R = x) by (rewrite app_nth2, Nat.sub_diag by lia; reflexivity). rewrite X.
  specialize (IH (pre ++ [x])). rewrite <- app_assoc, app_length, Nat.add_1_r in IH. cbn [app] in IH. unfold Rleb at 1. destruct (Rle_dec rmin x); cbn [map]; rewrite ?X, IH; reflexivity.
Qed.
Print Assumptions C92_minimum_range.
Example C92_minimum_range_met : exists c, receive (fun x => x) (mkFmcw 2 2 4 0) 0 1 1 0 [] [] = Ok c /\ Radar_Model.range_bins c <> [].
Proof.
  assert (N : num_bins (mkFmcw 2 2 4 0) 1 1 = 2) by (apply num_bins_aligned; cbn [chirp_duration adc_rate INR]; lra || lia || (left; reflexivity)).
  assert (L : length (range_bins (mkFmcw 2 2 4 0) 1) = 2) by (apply (C92_advertised_range (mkFmcw 2 2 4 0) 1 2); cbn [chirp_duration adc_rate INR]; lra || lia).
  assert (Z0 : nth 0 (range_bins (mkFmcw 2 2 4 0) 1) 0%R = 0%R).
  { revert L. unfold range_bins, linspace. rewrite map_length, seq_length. intros ->. cbn. lra. }
  assert (E : existsb (fun i => num_bins (mkFmcw 2 2 4 0) 1 1 <=? i) (List.filter (fun i => Rleb 0 (nth i (range_bins (mkFmcw 2 2 4 0) 1) 0%R)) (seq 0 2)) = false).
  { rewrite N. apply Bool.not_true_is_false. intro T. apply existsb_exists in T as (i & I & T). apply filter_In in I as [I _]. apply in_seq in I. apply Nat.leb_le in T. lia. }
  destruct (receive (fun x => x) (mkFmcw 2 2 4 0) 0 1 1 0 [] []) as [c|] eqn:R.
  - exists c. split; [reflexivity|]. rewrite (C92_minimum_range _ _ _ _ _ _ _ _ _ R). destruct (range_bins (mkFmcw 2 2 4 0) 1) as [|x t]; [discriminate|]. cbn [nth] in Z0. subst x. cbn [List.filter]. destruct (Rle_dec 0 0); [discriminate|lra].
  - exfalso. assert (D : length (relative_doppler_bins (mkFmcw 2 2 4 0)) = 2) by (unfold relative_doppler_bins; rewrite map_length, seq_length; reflexivity).
    unfold receive in R. cbn [mapM bind] in R. rewrite L, E in R. unfold make_cube in R. cbn [bind] in R. rewrite D in R.
    rewrite map_length, !Nat.eqb_refl in R. cbn [num_chirps length Nat.eqb negb] in R. unfold Rltb in R. destruct (Rlt_dec 0 0); [lra|discriminate].
Qed.
