(** C89: chirp frequency shift keying. *)
From Coq Require Import List Reals Bool Arith Lia Lra ZArith.
From Coquelicot Require Import Complex.
From Verif Require Import Base BaseLemmas Cplx Cplx_Proofs Adc_Proofs Sc_Proofs Cfsk_Model Cfsk_Spec Cfsk_Proofs.
Import ListNotations.
Local Open Scope nat_scope.

(** Mapping bits to symbols and back returns the bits; symbols below the modulation order are mapped back and forth as well. *)
Theorem C89_bits_survive_mapping : forall c bits symbols, map_bits c bits = Ok symbols ->
  unmap c symbols = Ok bits /\ Forall (fun s => s < order c) symbols /\ length bits = length symbols * bits_per_symbol c.
Proof. exact unmap_map. Qed.
Print Assumptions C89_bits_survive_mapping.
Theorem C89_symbols_survive_unmapping : forall c symbols, 0 < bits_per_symbol c -> Forall (fun s => s < order c) symbols -> exists bits, unmap c symbols = Ok bits /\ map_bits c bits = Ok symbols.
Proof. exact map_unmap. Qed.
Print Assumptions C89_symbols_survive_unmapping.
Example C89_bits_met : map_bits (Fsk 2 1 0 1 1 0 1 4) [true; false; false; true; true; true] = Ok [2; 1; 3] /\ unmap (Fsk 2 1 0 1 1 0 1 4) [2; 1; 3] = Ok [true; false; false; true; true; true].
Proof. split; reflexivity. Qed.

(** A frame consists of the chirps of the pilot symbols 0, 1, ... repeated periodically, the chirps of its data symbols and the guard interval. All chirps have constant magnitude one. *)
Theorem C89_frames_are_sequences_of_chirps : forall c symbols, fills c symbols -> exists frame, modulate c symbols = Ok frame /\ length frame = samples_per_frame c /\
  (forall i k, i < pilots c -> k < samples_in_chirp c -> nth_error frame (samples_in_chirp c * i + k) = Some (Some (at0 (chirp c (i mod order c)) k))) /\
  (forall i s k, nth_error symbols i = Some s -> k < samples_in_chirp c -> nth_error frame (samples_in_chirp c * (pilots c + i) + k) = Some (Some (at0 (chirp c s) k))) /\
  (forall s k, k < samples_in_chirp c -> Cmod (at0 (chirp c s) k) = 1%R).
Proof.
  intros c symbols FI. rewrite (modulate_ok c symbols FI). destruct FI as [L F]. eexists. split; [reflexivity|]. set (n := samples_in_chirp c). split; [|split; [|split]].
  - rewrite app_length, map_length, app_length, length_pilots, length_chirps, repeat_length, L. unfold samples_per_frame. fold n. lia.
  - intros i k Hi Hk. assert (B : n * i + k < n * pilots c) by nia. rewrite nth_error_app1 by (rewrite map_length, app_length, length_pilots; fold n; lia). rewrite nth_error_map', nth_error_app1 by (rewrite length_pilots; fold n; lia).
    rewrite pilot_chirps. rewrite (nth_error_nth' _ (RtoC 0)) by (rewrite length_chirps, map_length, seq_length; fold n; lia). cbn [option_map]. f_equal. f_equal.
    apply (at0_chirps c _ i (i mod order c) k Hk). rewrite nth_error_map', nth_error_seq. destruct (Nat.ltb_spec i (pilots c)); [reflexivity|lia].
  - intros i s k E Hk. assert (Hi : i < length symbols) by (apply nth_error_Some; congruence). assert (B : n * i + k < n * length symbols) by nia.
    rewrite nth_error_app1 by (rewrite map_length, app_length, length_pilots, length_chirps; fold n; lia). rewrite nth_error_map', nth_error_app2 by (rewrite length_pilots; fold n; lia).
    rewrite length_pilots. fold n. replace (n * (pilots c + i) + k - n * pilots c) with (n * i + k) by lia. rewrite (nth_error_nth' _ (RtoC 0)) by (rewrite length_chirps; fold n; lia). cbn [option_map]. f_equal. f_equal.
    exact (at0_chirps c symbols i s k Hk E).
  - intros s k Hk. apply chirp_unit. exact Hk.
Qed.
Print Assumptions C89_frames_are_sequences_of_chirps.
(** The guard interval is not silent: its samples are not initialised. *)
Theorem C89_silent_guard_refuted : exists c symbols frame t, fills c symbols /\ modulate c symbols = Ok frame /\ t < length frame /\ nth_error frame t = Some None.
Proof.
  set (c := Fsk 1 0 0 0 0 1 1 1). exists c, []. assert (F : fills c []) by (split; [reflexivity|constructor]). exists (map Some (pilot_signal c ++ concat (map (chirp c) [])) ++ List.repeat None (guard c)), 0.
  split; [exact F|]. split; [apply modulate_ok; exact F|]. split; [cbn; lia|reflexivity].
Qed.
Print Assumptions C89_silent_guard_refuted.

(** Symbols are detected despite any complex gain, whatever the samples of the guard interval are, if the noise during each chirp is less than half of the distance of the correlations. *)
Theorem C89_detection_tolerates_noise : forall c symbols h w frame signal, fills c symbols -> 0 < samples_in_chirp c ->
  modulate c symbols = Ok frame -> arrives h w frame signal ->
  (forall k i j, nth_error symbols k = Some i -> j < order c -> j <> i -> (2 * noise_in_chirp c w k < Cmod h * (INR (samples_in_chirp c) - overlap c i j))%R) ->
  demodulate c signal = Ok symbols.
Proof. exact demodulate_ok. Qed.
Print Assumptions C89_detection_tolerates_noise.

(** Without noise, all frames are recovered after any complex gain if and only if all chirps are distinct. *)
Lemma noiseless_zero : forall n, rsum (fun _ => Cmod (RtoC 0)) n = 0%R.
Proof. intro n. induction n as [|n IH]; [reflexivity|]. cbn [rsum]. rewrite IH, Cmod_0. ring. Qed.
Theorem C89_recovery_iff_distinct_chirps : forall c, 0 < samples_in_chirp c -> 0 < chirps c ->
  ((forall symbols h frame signal, fills c symbols -> h <> RtoC 0 -> modulate c symbols = Ok frame -> arrives h (fun _ => RtoC 0) frame signal -> demodulate c signal = Ok symbols) <-> distinct_chirps c).
Proof.
  intros c Hn Hc. split.
  - intros H i j Hi Hj E. assert (F : forall i, i < order c -> fills c (List.repeat i (chirps c))).
    { intros k Hk. split; [apply repeat_length|]. apply Forall_forall. intros x I. apply repeat_spec in I. subst. exact Hk. }
    assert (G : forall k, k < order c -> demodulate c (pilot_signal c ++ concat (map (chirp c) (List.repeat k (chirps c))) ++ List.repeat (RtoC 0) (guard c)) = Ok (List.repeat k (chirps c))).
    { intros k Hk. eapply (H _ (RtoC 1) _ _ (F k Hk)); [intro X; apply RtoC_inj in X; lra|apply modulate_ok; apply F; exact Hk|]. split.
      - rewrite !app_length, map_length, !app_length, !repeat_length. lia.
      - intros t v V. assert (T : t < length (pilot_signal c ++ concat (map (chirp c) (List.repeat k (chirps c))))).
        { destruct (Nat.lt_ge_cases t (length (pilot_signal c ++ concat (map (chirp c) (List.repeat k (chirps c)))))) as [K|K]; [exact K|]. rewrite nth_error_app2 in V by (rewrite map_length; exact K). apply nth_error_In in V. apply repeat_spec in V. discriminate. }
        rewrite nth_error_app1 in V by (rewrite map_length; exact T). rewrite nth_error_map' in V. rewrite app_assoc, nth_error_app1 by exact T. destruct (nth_error (pilot_signal c ++ _) t) as [u|]; [|discriminate]. cbn [option_map] in V.
        injection V as <-. f_equal. ring. }
    assert (A := G i Hi). assert (B := G j Hj). assert (K : map (chirp c) (List.repeat i (chirps c)) = map (chirp c) (List.repeat j (chirps c))) by (clear -E; induction (chirps c) as [|n IH]; [reflexivity|]; cbn [List.repeat map]; congruence).
    rewrite K in A. rewrite A in B. assert (R : List.repeat i (chirps c) = List.repeat j (chirps c)) by congruence. destruct (chirps c); [lia|]. cbn [List.repeat] in R. congruence.
  - intros D symbols h frame signal F Hh Em Ha. apply (demodulate_ok c symbols h (fun _ => RtoC 0) frame signal F Hn Em Ha). intros k i j E Hj Nj. unfold noise_in_chirp. rewrite noiseless_zero, Rmult_0_r.
    assert (Hi : i < order c) by (destruct F as [_ F]; rewrite Forall_forall in F; apply F; apply (nth_error_In _ k); exact E). apply Rmult_lt_0_compat; [apply Cmod_gt_0; exact Hh|].
    assert (O := overlap_other c i j Hn ltac:(intro X; apply Nj; symmetry; exact (D i j Hi Hj X))). lra.
Qed.
Print Assumptions C89_recovery_iff_distinct_chirps.

(** Chirps are distinct by default if they have at least as many samples as there are symbols, and for every positive frequency difference if no chirp leaves the bandwidth within its first sample. *)
Theorem C89_default_chirps_are_distinct : forall c, (bandwidth c > 0)%R -> (duration c > 0)%R -> 0 < oversampling c -> difference c = 0%R ->
  (INR (order c) <= duration c * bandwidth c * INR (oversampling c))%R -> distinct_chirps c.
Proof. exact default_distinct. Qed.
Print Assumptions C89_default_chirps_are_distinct.
Theorem C89_chirps_are_distinct : forall c, (bandwidth c > 0)%R -> (duration c > 0)%R -> 0 < oversampling c -> (difference c > 0)%R ->
  ((INR (order c) - 1) * difference c + / (duration c * INR (oversampling c)) <= bandwidth c)%R -> distinct_chirps c.
Proof.
  intros c B T O D W. assert (Os : (1 <= INR (oversampling c))%R) by (apply (le_INR 1); lia). assert (S : step c = difference c) by (unfold step; destruct (Req_EM_T (difference c) 0); [lra|reflexivity]).
  apply no_wrap_distinct; auto; rewrite S; [exact D|]. unfold sampling_rate. replace (bandwidth c / (duration c * (INR (oversampling c) * bandwidth c)))%R with (/ (duration c * INR (oversampling c)))%R by (field; lra). exact W.
Qed.
Print Assumptions C89_chirps_are_distinct.
Example C89_distinct_met : let c := Fsk 3 8 0 2 5 0 1 1 in distinct_chirps c /\ 0 < samples_in_chirp c.
Proof.
  cbn zeta. split.
  - apply C89_default_chirps_are_distinct; cbn [bandwidth duration oversampling difference]; try lra; try lia. unfold order. cbn. lra.
  - assert (2 <= samples_in_chirp (Fsk 3 8 0 2 5 0 1 1)) by (apply ceil_two; cbn [duration bandwidth oversampling INR]; lra). lia.
Qed.

(** Shorter chirps and large frequency differences transmit different symbols by the same chirp. *)
Lemma two_samples : forall c, (duration c * bandwidth c * INR (oversampling c) = 2)%R -> samples_in_chirp c = 2.
Proof. intros c H. unfold samples_in_chirp. rewrite H. rewrite (Int_part_unique (- (2)) (-2)); [reflexivity|lra]. Qed.
Theorem C89_chirps_are_distinct_refuted :
  (exists c, (bandwidth c > 0)%R /\ (duration c > 0)%R /\ 0 < oversampling c /\ difference c = 0%R /\ 1 < samples_in_chirp c /\ ~ distinct_chirps c) /\
  (exists c, (bandwidth c > 0)%R /\ (duration c > 0)%R /\ 0 < oversampling c /\ (difference c > 0)%R /\ order c <= samples_in_chirp c /\ ~ distinct_chirps c).
Proof.
  split.
  - set (c := Fsk 2 2 0 0 1 0 1 1). exists c. assert (N : samples_in_chirp c = 2) by (apply two_samples; cbn; lra). repeat split; try (cbn; lra); try (cbn; lia); [].
    intro D. assert (X : 1 = 3); [|discriminate]. apply D; [cbn; lia|cbn; lia|].
    assert (S : step c = (1 / 4)%R) by (unfold step, order; cbn; destruct (Req_EM_T 0 0); [lra|lra]). unfold chirp. rewrite N. cbn [tab map seq]. unfold tab. cbn [map seq]. f_equal. f_equal. f_equal. f_equal.
    cbn [cycles]. f_equal. unfold frequency, sampling_rate. rewrite S. cbn [c bandwidth duration oversampling INR].
    repeat match goal with |- context [Rlt_dec ?a ?b] => destruct (Rlt_dec a b); [try (exfalso; lra)|try (exfalso; lra)] end; lra.
  - set (c := Fsk 1 2 2 0 1 0 1 1). exists c. assert (N : samples_in_chirp c = 2) by (apply two_samples; cbn; lra). repeat split; try (cbn; lra); try (cbn; lia).
    intro D. assert (X : 0 = 1); [|discriminate]. apply D; [cbn; lia|cbn; lia|].
    assert (S : step c = 2%R) by (unfold step; cbn; destruct (Req_EM_T 2 0); [lra|lra]). unfold chirp. rewrite N. unfold tab. cbn [map seq]. f_equal. f_equal.
    assert (Q : forall x y, (y = x + 1)%R -> cis (2 * PI * x) = cis (2 * PI * y)).
    { intros x y ->. replace (2 * PI * (x + 1))%R with (2 * PI * x + 2 * INR 1 * PI)%R by (cbn; ring). unfold cis. rewrite cos_period, sin_period. reflexivity. }
    apply Q. cbn [cycles]. unfold frequency, sampling_rate. rewrite S. cbn [c bandwidth duration oversampling INR].
    repeat match goal with |- context [Rlt_dec ?a ?b] => destruct (Rlt_dec a b); [try (exfalso; lra)|try (exfalso; lra)] end; lra.
Qed.
Print Assumptions C89_chirps_are_distinct_refuted.

(** The number of samples agrees with the duration of frames if chirps consist of a whole number of samples. *)
Theorem C89_frame_duration : forall c interval n, (bandwidth c > 0)%R -> 0 < oversampling c ->
  (duration c * bandwidth c * INR (oversampling c) = INR n)%R -> (interval * bandwidth c * INR (oversampling c) = INR (guard c))%R ->
  (INR (samples_per_frame c) / (bandwidth c * INR (oversampling c)) = frame_duration c interval)%R.
Proof.
  intros c g n B O D G. assert (Os : (1 <= INR (oversampling c))%R) by (apply (le_INR 1); lia).
  assert (N : samples_in_chirp c = n). { unfold samples_in_chirp. rewrite D. rewrite (Int_part_unique _ (- Z.of_nat n)); [rewrite Z.opp_involutive; apply Nat2Z.id|]. rewrite opp_IZR, <- INR_IZR_INZ. lra. }
  unfold samples_per_frame, frame_duration. rewrite N. rewrite plus_INR, mult_INR, <- D, <- G, (Nat.add_comm (chirps c)). field. lra.
Qed.
Print Assumptions C89_frame_duration.
