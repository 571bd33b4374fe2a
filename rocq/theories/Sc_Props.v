(** C86-C88: frames, pulse shaping and channel estimation of single carrier waveforms. *)
From Coq Require Import List Reals Bool Arith Lia Lra Permutation.
From Coquelicot Require Import Complex.
From Verif Require Import Base BaseLemmas Cplx Cplx_Proofs Sc_Model Sc_Spec Sc_Proofs.
Import ListNotations.
Local Open Scope nat_scope.

(** ** C86: frames *)

(** The positions of the reference symbols and those of the data symbols are all positions of a frame, each of them once. *)
Theorem C86_positions_partition_frames : forall l, Permutation (map (reference_position l) (seq 0 (num_references l)) ++ map (data_position l) (seq 0 (data l))) (seq 0 (frame_symbols l)).
Proof. exact positions_permutation. Qed.
Print Assumptions C86_positions_partition_frames.
Example C86_positions_partition_frames_met : map (reference_position (Layout 2 5 1 2)) (seq 0 4) = [0; 1; 4; 8] /\ map (data_position (Layout 2 5 1 2)) (seq 0 5) = [2; 3; 5; 6; 7].
Proof. split; reflexivity. Qed.

(** Every symbol of a frame is defined; data and reference symbols are in order at their positions. *)
Theorem C86_frames_hold_data_and_references : forall l pilots_for symbols pilots,
  pilots_for (num_references l) = Ok pilots -> length pilots = num_references l -> length symbols = data l ->
  exists f, place l pilots_for symbols = Ok (map Some f) /\ length f = frame_symbols l /\
    (forall k, k < data l -> nth_error f (data_position l k) = nth_error symbols k) /\
    (forall k, k < num_references l -> nth_error f (reference_position l k) = nth_error pilots k).
Proof. exact place_defined. Qed.
Print Assumptions C86_frames_hold_data_and_references.

(** Picking the data of a frame, or of anything that arrived in the place of it, returns the values at the data positions: for the frame itself, its data. *)
Theorem C86_pick_inverts_place : forall l pilots_for symbols pilots f,
  pilots_for (num_references l) = Ok pilots -> length pilots = num_references l -> length symbols = data l ->
  place l pilots_for symbols = Ok (map Some f) -> pick l f = Ok symbols.
Proof.
  intros l pf symbols P f EP LP LS E. destruct (place_defined l pf symbols P EP LP LS) as [g [Eg [_ [D _]]]]. apply pick_ok; [exact LS|]. intros k Hk. rewrite <- (D k Hk).
  rewrite E in Eg. assert (G : map Some f = map Some g) by congruence. assert (f = g); [|congruence].
  apply (f_equal (map (fun o => match o with Some z => z | None => RtoC 0 end))) in G. rewrite !map_map, !map_id in G. exact G.
Qed.
Print Assumptions C86_pick_inverts_place.
Example C86_pick_inverts_place_met : exists f, place (Layout 1 2 1 1) (pilot_symbols [RtoC 1; RtoC 2] true) [RtoC 5; RtoC 6] = Ok (map Some f) /\
  f = [RtoC 1; RtoC 5; RtoC 2; RtoC 6; RtoC 1].
Proof. eexists. split; [|reflexivity]. reflexivity. Qed.

(** A wrong number of data symbols is rejected, unless it is one. *)
Theorem C86_wrong_number_of_symbols : forall l pilots_for symbols pilots,
  pilots_for (num_references l) = Ok pilots -> length pilots = num_references l -> length symbols <> data l -> length symbols <> 1 ->
  place l pilots_for symbols = Raise ValueError.
Proof. exact place_rejects. Qed.
Print Assumptions C86_wrong_number_of_symbols.
Example C86_wrong_number_of_symbols_met : place (Layout 1 2 1 0) (pilot_symbols [RtoC 1] true) [RtoC 5; RtoC 6; RtoC 7] = Raise ValueError.
Proof. reflexivity. Qed.
(** One symbol is accepted in place of any number of data symbols: it is repeated. *)
Theorem C86_wrong_number_of_symbols_refuted : exists l pilots_for symbols f, length symbols <> data l /\ place l pilots_for symbols = Ok (map Some f) /\ pick l f <> Ok symbols.
Proof.
  exists (Layout 1 2 0 0), (pilot_symbols [RtoC 1] true), [RtoC 5], [RtoC 1; RtoC 5; RtoC 5]. split; [cbn; lia|]. split; [reflexivity|].
  intro H. apply (f_equal (fun r => match r with Ok l => length l | Raise _ => 0 end)) in H. cbn in H. discriminate.
Qed.
Print Assumptions C86_wrong_number_of_symbols_refuted.

(** Reference symbols repeat the pilot sequence periodically. Without permission to repeat it, more symbols than it has are refused. *)
Theorem C86_pilot_symbols_are_periodic : forall sequence repeats n, sequence <> [] -> repeats = true \/ n <= length sequence ->
  exists p, pilot_symbols sequence repeats n = Ok p /\ length p = n /\ forall i, i < n -> nth_error p i = nth_error sequence (i mod length sequence).
Proof. exact pilot_symbols_ok. Qed.
Print Assumptions C86_pilot_symbols_are_periodic.
Theorem C86_pilot_symbols_are_not_repeated : forall sequence n, sequence <> [] -> length sequence < n -> pilot_symbols sequence false n = Raise RuntimeError.
Proof. exact pilot_symbols_short. Qed.
Print Assumptions C86_pilot_symbols_are_not_repeated.
Example C86_pilot_symbols_met : pilot_symbols [RtoC 1; RtoC 2] true 5 = Ok [RtoC 1; RtoC 2; RtoC 1; RtoC 2; RtoC 1] /\ pilot_symbols [RtoC 1; RtoC 2] false 3 = Raise RuntimeError.
Proof. split; reflexivity. Qed.

(** Setting the modulation order, even to the one in use, replaces the configured pilot sequence. *)
Theorem C86_pilot_sequence_kept_refuted : exists mapping w w', set_order mapping w (order w) = Ok w' /\ sequence w' <> sequence w.
Proof.
  exists (fun _ => [RtoC 1; RtoC (-1)]), (Waveform 2 [RtoC 3]). eexists. split; [reflexivity|]. cbn [sequence]. intro H. apply (f_equal (@length C)) in H. discriminate.
Qed.
Print Assumptions C86_pilot_sequence_kept_refuted.

(** ** C87: pulse shaping *)

(** Demodulation of a modulated frame weighs each symbol with the response of both filters at the distance of the symbols. *)
Theorem C87_loopback_response : forall sh s, usable sh -> s <> [] -> exists z, loopback sh s = Ok z /\ length z = length s /\
  forall j, j < length s -> at0 z j = csum (fun m => at0 s m *
    (if m * spacing sh <=? delay sh + j * spacing sh then cascade sh (delay sh + j * spacing sh - m * spacing sh) else RtoC 0))%C (length s).
Proof.
  intros sh s U N. destruct (loopback_ok sh s U N) as [y [z [Ey [Ez [L V]]]]]. exists z. unfold loopback. rewrite Ey. cbn [bind]. auto.
Qed.
Print Assumptions C87_loopback_response.

(** Demodulation recovers the symbols of every frame if and only if the filters meet the criterion of Nyquist. *)
Theorem C87_loopback_recovers_symbols_iff_nyquist : forall sh, usable sh -> ((forall s, s <> [] -> loopback sh s = Ok s) <-> nyquist sh).
Proof. intros sh U. split; [apply loopback_nyquist; exact U|]. intros N s Hs. apply nyquist_loopback; assumption. Qed.
Print Assumptions C87_loopback_recovers_symbols_iff_nyquist.

(** Rectangular and frequency modulated pulses do so at every oversampling, raised cosine pulses of any roll-off and length without oversampling. *)
Theorem C87_rectangular_pulses_are_recovered : forall os s, 0 < os -> s <> [] -> loopback (rectangular os) s = Ok s.
Proof. intros os s H N. destruct (rectangular_nyquist os H) as [U Q]. apply nyquist_loopback; assumption. Qed.
Print Assumptions C87_rectangular_pulses_are_recovered.
Theorem C87_fmcw_pulses_are_recovered : forall os chirp s, 0 < os -> 0 < chirp -> s <> [] -> loopback (fmcw os chirp) s = Ok s.
Proof. intros os chirp s H K N. destruct (fmcw_nyquist os chirp H K) as [U Q]. apply nyquist_loopback; assumption. Qed.
Print Assumptions C87_fmcw_pulses_are_recovered.
Theorem C87_raised_cosine_pulses_are_recovered : forall rolloff len s, 0 < len -> s <> [] -> loopback (rolled_off (raised_cosine rolloff) 1 len 1) s = Ok s.
Proof. intros b len s H N. destruct (raised_cosine_nyquist b len H) as [U Q]. apply nyquist_loopback; assumption. Qed.
Print Assumptions C87_raised_cosine_pulses_are_recovered.
Example C87_pulses_met : loopback (fmcw 2 3) [RtoC 1; Ci; RtoC 0] = Ok [RtoC 1; Ci; RtoC 0].
Proof. apply C87_fmcw_pulses_are_recovered; [lia|lia|discriminate]. Qed.

(** At any oversampling, the raised cosine pulse of even length vanishes at the instants of all other symbols. *)
Theorem C87_raised_cosine_vanishes_at_other_symbols : forall rolloff len os k, 0 < len -> 0 < os -> Nat.odd len = false -> k < len ->
  at0 (tx (rolled_off (raised_cosine rolloff) 1 len os)) (k * os) = if k =? len / 2 then RtoC 1 else RtoC 0.
Proof.
  intros b len os k H O E K. cbn [rolled_off tx]. rewrite at0_map_seq. assert (k * os < len * os) by (apply Nat.mul_lt_mono_pos_r; lia). destruct (Nat.ltb_spec (k * os) (len * os)); [|lia].
  rewrite instant_even, Rmult_1_r, raised_cosine_integer by assumption. destruct (Nat.eqb_spec k (len / 2)), (Z.eqb_spec (Z.of_nat k - Z.of_nat (len / 2)) 0); try lia; reflexivity.
Qed.
Print Assumptions C87_raised_cosine_vanishes_at_other_symbols.
Example C87_raised_cosine_vanishes_met : 0 < 16 /\ 0 < 4 /\ Nat.odd 16 = false /\ 3 < 16.
Proof. repeat split; lia. Qed.

(** With oversampling, the receiver filters the raised cosine pulse once more and symbols are not recovered. *)
Lemma not_recovered : forall sh, usable sh -> cascade sh (delay sh) <> RtoC 1 -> loopback sh [RtoC 1] <> Ok [RtoC 1].
Proof.
  intros sh U N E. destruct (loopback_ok sh [RtoC 1] U ltac:(discriminate)) as [y [z [Ey [Ez [L V]]]]]. unfold loopback in E. rewrite Ey in E. cbn [bind] in E. assert (Z : z = [RtoC 1]) by congruence.
  specialize (V 0 ltac:(cbn; lia)). rewrite Z in V. cbn [length csum] in V. rewrite !Nat.mul_0_l, Nat.add_0_r, Nat.sub_0_r in V. cbn [Nat.leb at0 nth] in V. apply N. unfold at0 in V. cbn [nth] in V. rewrite Cplus_0_l, Cmult_1_l in V. symmetry. exact V.
Qed.
Theorem C87_raised_cosine_pulses_are_recovered_refuted : exists rolloff len os s, 0 < len /\ 0 < os /\ s <> [] /\ loopback (rolled_off (raised_cosine rolloff) 1 len os) s <> Ok s.
Proof.
  exists 0%R, 2, 2, [RtoC 1]. split; [lia|]. split; [lia|]. split; [discriminate|]. apply not_recovered.
  - split; [cbn; lia|]. split; [discriminate|]. split; [discriminate|]. cbn. lia.
  - assert (P := PI_RGT_0).
    assert (T : tx (rolled_off (raised_cosine 0) 1 2 2) = [RtoC 0; RtoC (2 / PI); RtoC 1; RtoC (2 / PI)]).
    { assert (S : forall t, raised_cosine 0 t = sinc t) by (intro t; unfold raised_cosine; destruct (Req_EM_T 0 0); [|lra]; rewrite Rmult_0_r, Rmult_0_l, cos_0, Rmult_0_r, Rmult_0_l; field).
      assert (I : forall i, instant 2 2 i = (- 1 + INR i / 2)%R) by (intro i; unfold instant; cbn [Nat.odd Nat.even negb Nat.mul Nat.add Nat.div Nat.divmod fst INR]; field).
      cbn [rolled_off tx Nat.mul Nat.add seq map]. rewrite !S, !I. cbn [INR].
      replace ((-1 + 0 / 2) * 1)%R with (IZR (-1)) by field. replace ((-1 + (1 + 1) / 2) * 1)%R with (IZR 0) by field. rewrite !sinc_integer. cbn [Z.eqb].
      replace (sinc ((-1 + 1 / 2) * 1)) with (2 / PI)%R; [replace (sinc ((-1 + (1 + 1 + 1) / 2) * 1)) with (2 / PI)%R; [reflexivity|]|]; unfold sinc.
      - destruct (Req_EM_T ((-1 + (1 + 1 + 1) / 2) * 1) 0) as [E|E]; [lra|]. replace (PI * ((-1 + (1 + 1 + 1) / 2) * 1))%R with (PI / 2)%R by field. rewrite sin_PI2. field. lra.
      - destruct (Req_EM_T ((-1 + 1 / 2) * 1) 0) as [E|E]; [lra|]. replace (PI * ((-1 + 1 / 2) * 1))%R with (- (PI / 2))%R by field. rewrite sin_neg, sin_PI2. field. lra. }
    assert (R : rx (rolled_off (raised_cosine 0) 1 2 2) = map (fun z => z * RtoC (/ INR 2))%C (tx (rolled_off (raised_cosine 0) 1 2 2))) by reflexivity.
    unfold cascade. rewrite R, T. change (delay (rolled_off (raised_cosine 0) 1 2 2)) with 4. cbn [map csum Nat.sub]. unfold at0. cbn [nth].
    intro E. apply (f_equal fst) in E. unfold Cplus, Cmult, RtoC in E. cbn [fst snd INR] in E.
    assert (X : (2 / PI * (2 / PI) = 1 / 2)%R) by lra. assert (Y : (PI * PI = 8)%R). { replace 8%R with (PI * PI * (2 * (2 / PI * (2 / PI))))%R by (field; lra). rewrite X. lra. }
    assert (PI > 3)%R by (assert (Q := PI2_3_2); lra). nra.
Qed.
Print Assumptions C87_raised_cosine_pulses_are_recovered_refuted.

(** With oversampling, filters of odd length are not sampled where the symbols are. *)
Theorem C87_odd_filter_lengths_refuted : exists rolloff len os s, Nat.odd len = true /\ 0 < os /\ loopback (rolled_off (raised_cosine rolloff) 1 len os) s = Ok (map (Cmult (RtoC (1 / 2))) s) /\ s = [RtoC 1].
Proof.
  exists 0%R, 1, 2, [RtoC 1]. split; [reflexivity|]. split; [lia|]. split; [|reflexivity].
  assert (U : usable (rolled_off (raised_cosine 0) 1 1 2)) by (split; [cbn; lia|]; split; [discriminate|]; split; [discriminate|]; cbn; lia).
  destruct (loopback_ok _ [RtoC 1] U ltac:(discriminate)) as [y [z [Ey [Ez [L V]]]]]. unfold loopback. rewrite Ey. cbn [bind]. rewrite Ez. f_equal. apply list_eq_at0; [exact L|].
  intros j Hj. cbn [length map] in Hj. assert (j = 0) by lia. subst j. rewrite V by (cbn; lia). cbn [length csum]. unfold cascade. rewrite !Nat.mul_0_l, Nat.add_0_r, Nat.sub_0_r.
  change (delay (rolled_off (raised_cosine 0) 1 1 2)) with 0. cbn [Nat.leb csum Nat.sub].
  assert (H0 : raised_cosine 0 (instant 1 2 0 * 1) = 1%R).
  { replace (instant 1 2 0 * 1)%R with (IZR 0) by (unfold instant; cbn; field). rewrite raised_cosine_integer. reflexivity. }
  unfold at0. cbn [rolled_off tx rx map seq Nat.mul Nat.add nth]. rewrite H0. unfold Cplus, Cmult, RtoC. cbn [fst snd INR]. f_equal; field.
Qed.
Print Assumptions C87_odd_filter_lengths_refuted.

(** The root raised cosine pulse is not normalised: even without oversampling and interference, its symbols come back scaled. *)
Theorem C87_root_raised_cosine_refuted : exists rolloff len s, 0 < len /\ s <> [] /\ loopback (rolled_off (root_raised_cosine rolloff) 1 len 1) s <> Ok s.
Proof.
  exists 1%R, 1, [RtoC 1]. split; [lia|]. split; [discriminate|]. apply not_recovered.
  - split; [cbn; lia|]. split; [discriminate|]. split; [discriminate|]. cbn. lia.
  - assert (P := PI_RGT_0). assert (H0 : root_raised_cosine 1 (instant 1 1 0 * 1) = (4 / PI)%R).
    { replace (instant 1 1 0 * 1)%R with 0%R by (unfold instant; cbn; unfold Rdiv; rewrite Rmult_0_r, Rmult_0_l; field). unfold root_raised_cosine. destruct (Req_EM_T 0 0); [|lra]. field. lra. }
    unfold cascade. change (delay (rolled_off (root_raised_cosine 1) 1 1 1)) with 0. cbn [csum Nat.sub]. unfold at0. cbn [rolled_off tx rx map seq Nat.mul Nat.add nth]. rewrite H0.
    intro E. apply (f_equal fst) in E. unfold Cplus, Cmult, RtoC in E. cbn [fst snd INR] in E. rewrite Rinv_1 in E.
    assert (X : (4 / PI * (4 / PI) = 1)%R) by lra. assert (Y : (PI * PI = 16)%R). { replace 16%R with (PI * PI * (4 / PI * (4 / PI)))%R by (field; lra). rewrite X. lra. }
    assert (Q := proj2 (PI_ineq 1)). cbn [sum_f_R0 Nat.mul Nat.add] in Q. unfold tg_alt, PI_tg in Q. cbn [INR pow Nat.mul Nat.add] in Q. assert (Z : (PI <= 52 / 15)%R) by lra. nra.
Qed.
Print Assumptions C87_root_raised_cosine_refuted.

(** Modulated frames have the announced number of samples. *)
Theorem C87_samples_per_frame : forall sh s y, 0 < spacing sh -> tx sh <> [] -> s <> [] -> modulate sh (length s) s = Ok y -> length y = samples_per_frame sh (length s).
Proof. intros sh s y P T N E. destruct (frame_ok sh s P T N) as [y' [E' [L _]]]. assert (y' = y) by congruence. subst. exact L. Qed.
Print Assumptions C87_samples_per_frame.
Theorem C87_fmcw_samples_per_frame : forall os chirp s y, 0 < os -> 0 < chirp -> s <> [] -> modulate (fmcw os chirp) (length s) s = Ok y -> length y = fmcw_samples_per_frame os chirp (length s).
Proof.
  intros os chirp s y O K N E. destruct (fmcw_nyquist os chirp O K) as [[U1 [U2 _]] _]. destruct (frame_ok _ s U1 U2 N) as [y' [E' [L _]]]. assert (y' = y) by congruence. subst. rewrite L.
  unfold fmcw_samples_per_frame. cbn [fmcw tx spacing]. unfold fmcw_tx. rewrite length_tab. destruct s as [|z s]; [congruence|]. cbn [length]. replace (S (length s) - 1) with (length s) by lia. lia.
Qed.
Print Assumptions C87_fmcw_samples_per_frame.
Example C87_samples_per_frame_met : exists y, modulate (rectangular 2) 3 [RtoC 1; RtoC 2; RtoC 3] = Ok y /\ length y = 6.
Proof.
  destruct (frame_ok (rectangular 2) [RtoC 1; RtoC 2; RtoC 3]) as [y [E [L _]]]; [cbn; lia|discriminate|discriminate|]. exists y. split; [exact E|]. exact L.
Qed.
(** A frame of rectangular pulses lasts its announced duration; frames of chirps of several samples last longer than announced, and no guard interval counts. *)
Theorem C87_frame_duration : forall os s y bandwidth, 0 < os -> s <> [] -> (bandwidth > 0)%R -> modulate (rectangular os) (length s) s = Ok y ->
  (INR (length y) / (bandwidth * INR os) = frame_duration (length s) bandwidth 0)%R.
Proof.
  intros os s y b O N B E. destruct (rectangular_nyquist os O) as [[U1 [U2 _]] _]. rewrite (C87_samples_per_frame _ s y U1 U2 N E). unfold samples_per_frame, frame_duration. cbn [rectangular spacing tx].
  rewrite repeat_length. destruct s as [|z s]; [congruence|]. cbn [length]. replace ((S (length s) - 1) * os + os) with (S (length s) * os) by lia. rewrite mult_INR. field. split; [lra|apply not_0_INR; lia].
Qed.
Print Assumptions C87_frame_duration.
Theorem C87_frame_duration_refuted :
  (exists os chirp s y bandwidth, 0 < os /\ 0 < chirp /\ (bandwidth > 0)%R /\ modulate (fmcw os chirp) (length s) s = Ok y /\ (INR (length y) / (bandwidth * INR os) > frame_duration (length s) bandwidth 0)%R) /\
  (exists n bandwidth guard, (guard > 0)%R /\ frame_duration n bandwidth guard = frame_duration n bandwidth 0).
Proof.
  split.
  - destruct (fmcw_nyquist 1 2 ltac:(lia) ltac:(lia)) as [[U1 [U2 _]] _]. destruct (frame_ok _ [RtoC 1] U1 U2 ltac:(discriminate)) as [y [E [L _]]].
    exists 1, 2, [RtoC 1], y, 1%R. split; [lia|]. split; [lia|]. split; [lra|]. split; [exact E|]. rewrite L. unfold frame_duration. cbn. lra.
  - exists 1, 1%R, 1%R. split; [lra|reflexivity].
Qed.
Print Assumptions C87_frame_duration_refuted.

(** The pilot signal of waveforms whose symbols are as far apart as the oversampling says is the beginning of the modulated frame. *)
Theorem C87_pilot_signal_starts_frames : forall sh os preamble s y p t, spacing sh = os -> 0 < os -> tx sh <> [] -> 0 < preamble -> preamble <= length s ->
  modulate sh (length s) s = Ok y -> pilot_signal sh os preamble (firstn preamble s) = Ok p -> t < preamble * os -> at0 y t = at0 p t.
Proof. exact pilot_prefix. Qed.
Print Assumptions C87_pilot_signal_starts_frames.
(** That of frequency modulated waveforms is not. *)
Theorem C87_pilot_signal_starts_frames_refuted : exists os chirp preamble s y p t, 0 < preamble <= length s /\
  modulate (fmcw os chirp) (length s) s = Ok y /\ pilot_signal (fmcw os chirp) os preamble (firstn preamble s) = Ok p /\ t < preamble * os /\ at0 y t <> at0 p t.
Proof.
  destruct (fmcw_nyquist 1 2 ltac:(lia) ltac:(lia)) as [[U1 [U2 _]] _]. destruct (frame_ok _ [RtoC 1; RtoC 1] U1 U2 ltac:(discriminate)) as [y [E [L V]]].
  destruct (frame_ok (Shaping 1 (fmcw_tx 1 2) [] 0) [RtoC 1; RtoC 1] ltac:(cbn; lia) U2 ltac:(discriminate)) as [p [F [M W]]].
  exists 1, 2, 2, [RtoC 1; RtoC 1], y, p, 1. split; [cbn; lia|]. split; [exact E|]. split; [exact F|]. split; [lia|]. rewrite V, W. cbn [fmcw spacing tx length csum].
  replace (1 * (1 * 2) <=? 1) with false by reflexivity. replace (1 * 1 <=? 1) with true by reflexivity. replace (0 * 1 <=? 1) with true by reflexivity. replace (0 * (1 * 2) <=? 1) with true by reflexivity.
  replace (1 - 1 * 1) with 0 by lia. intro H. assert (Z : at0 (fmcw_tx 1 2) 0 = RtoC 1).
  { unfold fmcw_tx. rewrite at0_tab. cbn [Nat.ltb Nat.leb Nat.mul Nat.add INR]. replace (PI * (-1 / 1 * 0 + 1 / (1 ^ 2 * (1 + 1)) * 0 ^ 2))%R with 0%R by field. apply cis_0. }
  rewrite Z in H. unfold at0 in H. cbn [nth] in H. rewrite !Cmult_1_l, !Cplus_0_l, Cmult_1_l in H || idtac.
  apply (f_equal fst) in H. unfold Cplus, Cmult, RtoC in H. cbn [fst snd Nat.mul Nat.sub Nat.add] in H. lra.
Qed.
Print Assumptions C87_pilot_signal_starts_frames_refuted.

(** ** C88: channel estimation *)

(** At the positions of reference symbols, the estimated channel is the quotient of received and transmitted symbol. *)
Theorem C88_estimates_at_references : forall l pilots_for pilots received k e,
  pilots_for (num_references l) = Ok pilots -> length pilots = num_references l -> k < num_references l -> reference_position l k < length received ->
  estimate l pilots_for received = Ok e -> nth_error e (reference_position l k) = Some (at0 received (reference_position l k) / at0 pilots k)%C.
Proof. exact estimate_stems. Qed.
Print Assumptions C88_estimates_at_references.

(** A channel changing linearly over the frame is estimated exactly between the first and the last reference symbol and held constant outside of them. *)
Theorem C88_linear_channels_are_estimated : forall l pilots_for pilots received a b,
  pilots_for (num_references l) = Ok pilots -> length pilots = num_references l -> 0 < num_references l ->
  (forall k, k < num_references l -> at0 pilots k <> RtoC 0 /\ at0 received (reference_position l k) = ((a + b * RtoC (INR (reference_position l k))) * at0 pilots k)%C) ->
  exists e, estimate l pilots_for received = Ok e /\ length e = length received /\
    forall i, i < length received -> nth_error e i = Some (a + b * RtoC (INR (clamp (map (reference_position l) (seq 0 (num_references l))) i)))%C.
Proof.
  intros l pf P r a b EP LP N H. eexists. split; [apply (estimate_affine l pf P r a b EP LP N H)|]. split; [rewrite map_length, seq_length; reflexivity|].
  intros i Hi. rewrite nth_error_map', nth_error_seq. destruct (Nat.ltb_spec i (length r)); [|lia]. rewrite <- reference_list. reflexivity.
Qed.
Print Assumptions C88_linear_channels_are_estimated.

(** Without reference symbols there is no estimate. *)
Theorem C88_estimates_need_references : forall l pilots_for received, num_references l = 0 -> pilots_for 0 = Ok [] -> estimate l pilots_for received = Raise ValueError.
Proof.
  intros l pf r N E. unfold estimate. change (preamble l + num_pilots l + postamble l) with (num_references l). rewrite N, E. cbn [bind]. rewrite reference_list, N. reflexivity.
Qed.
Print Assumptions C88_estimates_need_references.

(** From data symbols to data symbols: over any channel with a constant complex gain and for all pulses meeting the criterion of Nyquist, placing, modulating, demodulating, estimating, equalizing and picking returns the data symbols. *)
Theorem C88_flat_channels_are_equalized : forall sh l pilots_for pilots symbols h, usable sh -> nyquist sh ->
  pilots_for (num_references l) = Ok pilots -> length pilots = num_references l -> 0 < num_references l -> (forall k, k < num_references l -> at0 pilots k <> RtoC 0) ->
  length symbols = data l -> h <> RtoC 0 ->
  exists f y z e, place l pilots_for symbols = Ok (map Some f) /\ modulate sh (frame_symbols l) f = Ok y /\ demodulate sh (frame_symbols l) (map (Cmult h) y) = Ok z /\
    estimate l pilots_for z = Ok e /\ pick l (equalize z e) = Ok symbols.
Proof.
  intros sh l pf P symbols h U Q EP LP N NZ LS Hh. destruct (place_defined l pf symbols P EP LP LS) as [f [Ef [Lf [Df Rf]]]]. exists f.
  assert (Nf : f <> []). { intro E. assert (K := positions_permutation l). apply Permutation_length in K. rewrite app_length, !map_length, !seq_length in K. rewrite E in Lf. cbn in Lf. lia. }
  destruct (loopback_ok sh f U Nf) as [y [z [Ey [Ez _]]]]. assert (G := nyquist_loopback sh f U Q Nf). unfold loopback in G. rewrite Ey in G. cbn [bind] in G. assert (Hz : z = f) by congruence. rewrite Hz in Ez.
  exists y, (map (Cmult h) f), (map (fun _ => h) f). split; [exact Ef|]. rewrite <- Lf. split; [exact Ey|]. split; [apply demodulate_gain; exact Ez|]. split.
  - rewrite (estimate_affine l pf P _ h (RtoC 0) EP LP N).
    + f_equal. rewrite map_length. unfold affine. rewrite (map_ext _ (fun _ => h)) by (intro; ring). clear. assert (A : forall {X} n a (f : list X), length f = n -> map (fun _ : nat => h) (seq a n) = map (fun _ => h) f).
      { intros X n. induction n as [|n IH]; intros a [|x g] Hg; cbn in *; try discriminate; [reflexivity|]. f_equal. apply IH. congruence. }
      apply A. reflexivity.
    + intros k Hk. split; [exact (NZ k Hk)|]. rewrite at0_gain. unfold affine. assert (V : at0 f (reference_position l k) = at0 P k).
      { specialize (Rf k Hk). unfold at0. rewrite (nth_error_nth' P (RtoC 0)) in Rf by lia. apply nth_error_nth. exact Rf. }
      rewrite V. ring.
  - rewrite equalize_gain by exact Hh. apply pick_ok; [exact LS|exact Df].
Qed.
Print Assumptions C88_flat_channels_are_equalized.
Example C88_flat_channels_are_equalized_met : let l := Layout 1 4 1 2 in
  num_references l = 3 /\ pilot_symbols [RtoC 1; Ci] true 3 = Ok [RtoC 1; Ci; RtoC 1] /\ usable (rectangular 4) /\ nyquist (rectangular 4).
Proof. cbn zeta. split; [reflexivity|]. split; [reflexivity|]. apply rectangular_nyquist. lia. Qed.
