(** Properties of ideal channel estimation *)
From Coq Require Import List Reals Bool Arith Lia Lra.
From Coquelicot Require Import Complex.
From Verif Require Import Base BaseLemmas Cplx Cplx_Proofs Ofdm_Model Ofdm_Proofs Sc_Model Sc_Spec Sc_Proofs Ice_Model Ice_Spec Ice_Proofs.
Import ListNotations.
Local Open Scope nat_scope.

(** Estimates are those of the channel sample realized last; without any sample, or without waveform, they are errors *)
Theorem C127_newest_sample : forall history h s os n dc starts,
  sc_estimate true (history ++ [h]) s os n = sc_states s os n h /\ ofdm_estimate true (history ++ [h]) dc n os starts = Ok (map (word_states dc n os h) starts) /\
  sc_estimate true [] s os n = Raise RuntimeError /\ ofdm_estimate true [] dc n os starts = Raise RuntimeError /\
  sc_estimate false history s os n = Raise AttributeError /\ ofdm_estimate false history dc n os starts = Raise AttributeError.
Proof. intros. unfold sc_estimate, ofdm_estimate, csi, cached. rewrite rev_app_distr. cbn. repeat split. Qed.
Print Assumptions C127_newest_sample.
(** Over a channel that does not change, the estimate of each symbol that is late enough is the sum of the taps earlier than one symbol, weighted by the products of both filters *)
Theorem C127_single_carrier_static : forall s os n h f, tx s <> [] -> length (tx s) = length (rx s) -> 0 < os -> 0 < taps h -> 0 < n -> static h f -> delay s / 2 + (n - 1) * os < samples h ->
  exists e, sc_states s os n h = Ok e /\ length e = n /\
    forall m, m < n -> length (tx s) + Nat.min os (taps h) <= delay s / 2 + m * os + 2 -> at0 e m = (csum (fun i => at0 (tx s) i * at0 (rx s) i) (length (tx s)) * csum f (Nat.min os (taps h)))%C.
Proof.
  intros s os n h f X L O D N H T. assert (Lc := length_characteristics s L). assert (1 <= length (tx s)) by (destruct (tx s); [contradiction|cbn; lia]). eexists. split; [apply sc_states_ok; [exact D|right; lia]|]. split; [rewrite map_length, seq_length; reflexivity|].
  intros m M W. unfold at0 at 1. rewrite (nth_map' _ (seq 0 n) 0) by (rewrite seq_length; exact M). rewrite seq_nth by exact M. rewrite Nat.add_0_l. assert (m * os <= (n - 1) * os) by (apply Nat.mul_le_mono_r; lia).
  rewrite (summed_static _ os h f); try assumption; try lia.
  - f_equal. rewrite Lc. apply csum_ext. intros i I. unfold characteristics. apply (at0_products (tx s) (rx s) i L).
  - intro Z. rewrite Z in Lc. cbn in Lc. lia.
Qed.
Print Assumptions C127_single_carrier_static.
Example C127_single_carrier_static_met : let s := rectangular 2 in let h := constant 6 3 (fun d => RtoC (INR d + 1)) in
  tx s <> [] /\ length (tx s) = length (rx s) /\ 0 < taps h /\ static h (fun d => RtoC (INR d + 1)) /\ delay s / 2 + (3 - 1) * 2 < samples h /\ length (tx s) + Nat.min 2 (taps h) <= delay s / 2 + 1 * 2 + 2.
Proof. cbn. repeat split; try discriminate; try lia. Qed.
(** Taps that are a symbol late or later do not matter *)
Theorem C127_late_taps_are_ignored : forall s os n h h', samples h = samples h' -> 0 < os -> os <= taps h -> os <= taps h' -> (forall t d, t < samples h -> d < os -> coefficient h t d = coefficient h' t d) -> sc_states s os n h = sc_states s os n h'.
Proof.
  intros s os n h h' S0 O D D' E. unfold sc_states. destruct (Nat.eqb_spec (taps h) 0); [lia|]. destruct (Nat.eqb_spec (taps h') 0); [lia|]. cbv zeta. rewrite <- S0. f_equal. apply map_ext. intro m. unfold summed. rewrite !Nat.min_l by assumption. f_equal.
  - apply filtered_ext; [exact S0|]. intros u U. apply E; [exact U|exact O].
  - apply csum_ext. intros k K. destruct (_ <=? _); [|reflexivity]. apply filtered_ext; [exact S0|]. intros u U. apply E; [exact U|lia].
Qed.
Print Assumptions C127_late_taps_are_ignored.
Example C127_late_taps_are_ignored_met : let h := constant 6 3 (fun d => RtoC (INR d)) in let h' := constant 6 4 (fun d => if d <? 2 then RtoC (INR d) else RtoC 7) in
  coefficient h 0 2 <> coefficient h' 0 2 /\ forall t d, t < samples h -> d < 2 -> coefficient h t d = coefficient h' t d.
Proof. split; [cbn; intro H; injection H; lra|]. intros t d _ D. destruct d as [|[|d]]; [reflexivity|reflexivity|lia]. Qed.
(** Rectangular pulses over a flat channel: all symbols but the first are estimated right *)
Theorem C127_flat_rectangular : forall os n g, 0 < os -> sc_states (rectangular os) os (S n) (constant (samples_per_frame (rectangular os) (S n)) 1 (fun _ => g)) = Ok ((RtoC (INR ((os - 1) / 2 + 1) / INR os) * g)%C :: repeat g n).
Proof.
  intros os n g O. assert (Half : (os - 1) / 2 <= os - 1) by (apply Nat.div_le_upper_bound; lia). assert (Half2 : (os - 1) / 2 * 2 <= os - 1) by (rewrite Nat.mul_comm; apply Nat.mul_div_le; lia).
  assert (Q : samples_per_frame (rectangular os) (S n) = n * os + os). { unfold samples_per_frame, rectangular. cbn [tx spacing]. rewrite repeat_length. f_equal. f_equal. lia. }
  assert (Lc : length (characteristics (rectangular os)) = os) by (rewrite rectangular_characteristics; apply repeat_length).
  rewrite Q, sc_states_ok; [|cbn; lia|right; rewrite Lc; cbn [samples constant delay rectangular]; replace (S n - 1) with n by lia; lia]. f_equal. cbn [seq map]. cbn [delay rectangular]. f_equal.
  - unfold summed. cbn [taps constant]. replace (Nat.min os 1 - 1) with 0 by lia. cbn [csum]. rewrite Cplus_0_r, filtered_flat_rectangular by lia. rewrite Nat.mul_0_l, Nat.add_0_r. rewrite Nat.min_r by lia. reflexivity.
  - rewrite <- seq_shift, map_map. transitivity (map (fun _ => g) (seq 0 n)).
    + apply map_ext_in. intros m M. apply in_seq in M. unfold summed. cbn [taps constant]. replace (Nat.min os 1 - 1) with 0 by lia. cbn [csum]. assert (m * os + os <= n * os) by nia. rewrite Cplus_0_r, filtered_flat_rectangular by nia.
      rewrite Nat.min_l by nia. replace (INR os / INR os)%R with 1%R by (field; apply not_0_INR; lia). ring.
    + clear. generalize 0. induction n as [|n IH]; intro a; [reflexivity|]. cbn. f_equal. apply IH.
Qed.
Print Assumptions C127_flat_rectangular.
Example C127_flat_rectangular_met : sc_states (rectangular 1) 1 2 (constant 2 1 (fun _ => Ci)) = Ok [(RtoC (1 / 1) * Ci)%C; Ci].
Proof. exact (C127_flat_rectangular 1 1 Ci Nat.lt_0_1). Qed.
(** Refuted: ideal estimates equalize flat channels.  With four samples per symbol the first symbol is doubled *)
Theorem C127_first_symbol_refuted : forall g s rest, g <> RtoC 0 -> exists e, sc_states (rectangular 4) 4 (S (length rest)) (constant (samples_per_frame (rectangular 4) (S (length rest))) 1 (fun _ => g)) = Ok e /\
  loopback (rectangular 4) (s :: rest) = Ok (s :: rest) /\ equalize (map (Cmult g) (s :: rest)) e = (RtoC 2 * s)%C :: rest.
Proof.
  intros g s rest G. eexists. split; [apply C127_flat_rectangular; lia|]. split.
  - destruct (rectangular_nyquist 4 ltac:(lia)) as [U Q]. apply nyquist_loopback; [exact U|exact Q|discriminate].
  - unfold equalize. cbn [map combine fst snd]. f_equal.
    + replace (INR ((4 - 1) / 2 + 1) / INR 4)%R with (/ 2)%R by (cbn; field). replace (RtoC (/ 2)) with (/ RtoC 2)%C by (rewrite RtoC_inv; [reflexivity|lra]). assert (Two : RtoC 2 <> RtoC 0) by (intro Z; apply RtoC_inj in Z; lra). field. repeat split; assumption.
    + induction rest as [|a rest IH]; [reflexivity|]. cbn [map length repeat combine fst snd]. f_equal; [field; exact G|exact IH].
Qed.
Print Assumptions C127_first_symbol_refuted.
(** Refuted: frequency modulated waveforms are estimated at all.  The products of both filters cancel *)
Theorem C127_fmcw_refuted : forall g, exists e, sc_states (fmcw 1 2) 1 3 (constant (fmcw_samples_per_frame 1 2 3) 1 (fun _ => g)) = Ok e /\ length e = 3 /\ at0 e 1 = RtoC 0 /\ at0 e 2 = RtoC 0.
Proof.
  intro g. assert (T0 : tx (fmcw 1 2) = [RtoC 1; (- Ci)%C]).
  { cbn [tx fmcw]. unfold fmcw_tx. change (2 * 1) with 2. unfold tab. cbn [seq map INR]. f_equal; [|f_equal].
    - replace (PI * (- 1 / 1 * 0 + 1 / (1 ^ 2 * (1 + 1)) * 0 ^ 2))%R with 0%R by field. apply cis_0.
    - replace (PI * (- 1 / 1 * 1 + 1 / (1 ^ 2 * (1 + 1)) * 1 ^ 2))%R with (- (PI / 2))%R by field. unfold cis. rewrite cos_neg, sin_neg, cos_PI2, sin_PI2. apply C_ext; cbn; ring. }
  assert (R0 : rx (fmcw 1 2) = [(RtoC (/ 2) * Ci)%C; RtoC (/ 2)]).
  { cbn [rx tx fmcw] in *. rewrite T0. cbn [rev app map]. cbn [INR]. f_equal; [|f_equal]; apply C_ext; cbn; field. }
  destruct (C127_single_carrier_static (fmcw 1 2) 1 3 (constant (fmcw_samples_per_frame 1 2 3) 1 (fun _ => g)) (fun _ => g)) as (e & E & Le & V).
  - rewrite T0. discriminate.
  - rewrite T0, R0. reflexivity.
  - lia.
  - cbn. lia.
  - lia.
  - intros t d _ _. reflexivity.
  - cbn. lia.
  - exists e. split; [exact E|]. split; [exact Le|]. rewrite T0, R0 in V. assert (Z : csum (fun i => at0 [RtoC 1; (- Ci)%C] i * at0 [(RtoC (/ 2) * Ci)%C; RtoC (/ 2)] i)%C (length [RtoC 1; (- Ci)%C]) = RtoC 0).
    { cbn [length csum at0 nth]. unfold at0. cbn [nth]. apply C_ext; cbn; field. }
    split; (rewrite V; [rewrite Z; ring|lia|cbn; lia]).
Qed.
Print Assumptions C127_fmcw_refuted.
(** OFDM over a channel that does not change, with a cyclic prefix as long as the channel: each symbol received is the symbol sent times its estimate *)
Theorem C127_ofdm_static : forall history h f dc n os starts p x, 0 < n -> 0 < os -> length x = n -> static h f -> taps h <= p + 1 -> taps h <= os * n -> p <= os * n -> List.Forall (fun start => start + os * n <= samples h) starts ->
  exists e, ofdm_estimate true (history ++ [h]) dc n os starts = Ok e /\ length e = length starts /\ List.Forall (fun w => length w = n /\ ofdm_backward_word dc n os (over f (taps h) p (ofdm_forward_word dc n os x)) = products x w) e.
Proof.
  intros history h f dc n os starts p x N O L H P D Q F. exists (map (word_states dc n os h) starts). split; [apply C127_newest_sample; exact (rectangular 1)|]. split; [apply map_length|]. rewrite List.Forall_forall in *. intros w W. apply in_map_iff in W as (start & <- & W). destruct (static_word_received dc n os h f p x start) as [A B]; try assumption; [exact (F start W)|]. split; assumption.
Qed.
Print Assumptions C127_ofdm_static.
Example C127_ofdm_static_met : let h := constant 20 3 (fun d => RtoC (INR d)) in static h (fun d => RtoC (INR d)) /\ taps h <= 2 + 1 /\ taps h <= 2 * 4 /\ 2 <= 2 * 4 /\ List.Forall (fun start => start + 2 * 4 <= samples h) [2; 12].
Proof. cbn. repeat split; try lia. repeat constructor; lia. Qed.
(** Hence zero forcing with the estimates recovers the symbols, unless an estimate is zero *)
Theorem C127_ofdm_equalized : forall h f dc n os p x start, 0 < n -> 0 < os -> length x = n -> static h f -> taps h <= p + 1 -> taps h <= os * n -> p <= os * n -> start + os * n <= samples h ->
  (forall k, k < n -> at0 (word_states dc n os h start) k <> RtoC 0) -> equalize (ofdm_backward_word dc n os (over f (taps h) p (ofdm_forward_word dc n os x))) (word_states dc n os h start) = x.
Proof.
  intros h f dc n os p x start N O L H P D Q F Z. destruct (static_word_received dc n os h f p x start) as [A B]; try assumption. rewrite A. revert B Z. generalize (word_states dc n os h start). subst n. clear. intros w B Z. revert w B Z. induction x as [|a x IH]; intros [|b w] B Z; try discriminate; [reflexivity|].
  unfold equalize, products in *. cbn [combine map fst snd]. f_equal; [assert (b <> RtoC 0) by (apply (Z 0); cbn; lia); field; assumption|]. apply IH; [cbn in B; lia|]. intros k K. apply (Z (S k)). cbn. lia.
Qed.
Print Assumptions C127_ofdm_equalized.
(** A flat channel is estimated as it is, on every subcarrier *)
Theorem C127_ofdm_flat : forall h f dc n os start, 0 < n -> 0 < os -> static h f -> taps h = 1 -> start + os * n <= samples h -> word_states dc n os h start = repeat (f 0) n.
Proof.
  intros h f dc n os start N O H D F. assert (N1 : 0 < os * n) by nia. rewrite (static_word dc n os h f start H N1 F), D.
  assert (E : fft Backward (padded_taps (os * n) 1 f) = map (fun _ : nat => f 0) (seq 0 (os * n))).
  { apply nth_ext with (d := RtoC 0) (d' := RtoC 0); [rewrite length_fft, map_length, seq_length; apply length_tab|]. intros k K. rewrite length_fft in K. unfold padded_taps in K. rewrite length_tab in K. change (at0 (fft Backward (padded_taps (os * n) 1 f)) k = nth k (map (fun _ : nat => f 0) (seq 0 (os * n))) (RtoC 0)). rewrite fft_padded by lia.
    rewrite (nth_map' _ _ 0) by (rewrite seq_length; exact K). cbn [csum]. replace (turn (os * n) k 0) with 0%R by (unfold turn; cbn [INR]; field; apply not_0_INR; lia). rewrite Ropp_0, cis_0. ring. }
  rewrite E, bins_map. assert (Lb : length (bins dc n os (seq 0 (os * n))) = n) by (apply length_bins; try assumption; apply seq_length). revert Lb. generalize (bins dc n os (seq 0 (os * n))). intros l <-. clear. induction l as [|a l IH]; [reflexivity|]. cbn. f_equal. exact IH.
Qed.
Print Assumptions C127_ofdm_flat.
Example C127_ofdm_equalized_met : let h := constant 20 1 (fun _ => Ci) in forall k, k < 4 -> at0 (word_states true 4 2 h 3) k <> RtoC 0.
Proof.
  intros h k K. rewrite (C127_ofdm_flat h (fun _ => Ci)); [|lia|lia|intros t d _ _; reflexivity|reflexivity|cbn; lia]. unfold at0. rewrite nth_repeat' by exact K. intro Z. apply (f_equal snd) in Z. cbn in Z. lra.
Qed.
