(** C103: leakage calibrations remove what leaks. *)
From Coq Require Import List Arith ZArith Lia Reals Lra Bool.
From Coquelicot Require Import Complex.
From Verif Require Import Base BaseLemmas Cplx Cplx_Proofs Iso_Model Corr_Model Corr_Spec Corr_Proofs Leak_Model Leak_Spec Leak_Proofs.
Import ListNotations.
Local Open Scope nat_scope.

(** The leakage of as many transmitting ports as the response has receiving ports is removed from every received sample; other ports keep their samples.
    The leakage may start at any sample of the reception. *)
Theorem C103_leakage_is_removed : forall c tx rx y s, let r := leakage_response c in
  rate tx = rate rx -> carrier tx = carrier rx -> 1 <= samples tx -> streams tx <= l_rows r -> streams tx <= l_cols r ->
  nearest ((model_delay c - (delay tx + delay rx)) * rate rx) (Z.of_nat s) -> s <= samples rx ->
  (forall i j, i < streams rx -> j < samples rx -> at_ rx i j = (y i j + if i <? l_rows r then leaks_later s (l_taps r) (samples tx) (l_e r) (at_ tx) 0 (streams tx) i j else RtoC 0)%C) ->
  exists out, remove_leakage c tx rx = Ok out /\ same_header out rx /\ forall i j, i < streams rx -> j < samples rx -> at_ out i j = y i j.
Proof.
  intros c tx rx y s r HR HC HN H1 H2 HS HL HY. destruct (removed c tx rx s HR HC HN) as (out & E & SH & V); try assumption; [fold r; lia|]. exists out. split; [exact E|]. split; [exact SH|].
  intros i j Hi Hj. rewrite V, HY by assumption. fold r. rewrite Nat.min_l by lia. destruct (i <? l_rows r); ring.
Qed.
Print Assumptions C103_leakage_is_removed.
Example C103_leakage_is_removed_met :
  let c := Calibration (Response 1 1 1 (fun _ _ _ => RtoC 2)) 1 1 in let tx := Dense 1 2 (fun _ _ => RtoC 3) 1 0 0 in let rx := Dense 1 3 (fun _ j => if 1 <=? j then RtoC 7 else RtoC 1) 1 0 0 in
  exists out, remove_leakage c tx rx = Ok out /\ forall j, j < 3 -> at_ out 0 j = RtoC 1.
Proof.
  cbv zeta. destruct (C103_leakage_is_removed (Calibration (Response 1 1 1 (fun _ _ _ => RtoC 2)) 1 1) (Dense 1 2 (fun _ _ => RtoC 3) 1 0 0) (Dense 1 3 (fun _ j => if 1 <=? j then RtoC 7 else RtoC 1) 1 0 0) (fun _ _ => RtoC 1) 1) as (out & E & _ & V); cbn; try lia; try reflexivity.
  - left; unfold Rabs; destruct (Rcase_abs _); lra.
  - intros i j Hi Hj. assert (i = 0) as -> by lia. destruct j as [|[|[|j]]]; [| | |lia]; cbn; unfold leaks_later, leaks; cbn; apply injective_projections; cbn; lra.
  - exists out. split; [exact E|]. intros j Hj. apply V; cbn; lia.
Qed.

(** Signals of other rates or carrier frequencies are refused; nothing is removed if nothing was transmitted. *)
Theorem C103_other_signals : forall c tx rx,
  (rate tx <> rate rx \/ carrier tx <> carrier rx -> remove_leakage c tx rx = Raise ValueError) /\
  (rate tx = rate rx -> carrier tx = carrier rx -> samples tx = 0 -> remove_leakage c tx rx = Ok rx).
Proof.
  intros c tx rx. unfold remove_leakage. split.
  - intros [H|H]; destruct (Req_EM_T (rate tx) (rate rx)); try reflexivity; try contradiction; destruct (Req_EM_T (carrier tx) (carrier rx)); reflexivity || contradiction.
  - intros H1 H2 H3. destruct (Req_EM_T (rate tx) (rate rx)); [|contradiction]. destruct (Req_EM_T (carrier tx) (carrier rx)); [|contradiction]. rewrite H3. reflexivity.
Qed.
Print Assumptions C103_other_signals.

(** Refuted: that the leakage of all transmitting ports is removed. With fewer receiving ports, the leakage of the remaining transmitting ports stays. *)
Theorem C103_further_transmitters_refuted : forall c tx rx y s, let r := leakage_response c in
  rate tx = rate rx -> carrier tx = carrier rx -> 1 <= samples tx -> l_rows r <= streams tx -> streams tx <= l_cols r ->
  nearest ((model_delay c - (delay tx + delay rx)) * rate rx) (Z.of_nat s) -> s <= samples rx ->
  (forall i j, i < streams rx -> j < samples rx -> at_ rx i j = (y i j + if i <? l_rows r then leaks_later s (l_taps r) (samples tx) (l_e r) (at_ tx) 0 (streams tx) i j else RtoC 0)%C) ->
  exists out, remove_leakage c tx rx = Ok out /\
    forall i j, i < streams rx -> j < samples rx -> at_ out i j = (y i j + if i <? l_rows r then leaks_later s (l_taps r) (samples tx) (l_e r) (at_ tx) (l_rows r) (streams tx) i j else RtoC 0)%C.
Proof.
  intros c tx rx y s r HR HC HN H1 H2 HS HL HY. destruct (removed c tx rx s HR HC HN) as (out & E & SH & V); try assumption; [fold r; lia|]. exists out. split; [exact E|].
  intros i j Hi Hj. rewrite V, HY by assumption. fold r. rewrite Nat.min_r by lia. destruct (i <? l_rows r); [|ring]. unfold leaks_later. destruct (s <=? j); [|ring].
  rewrite (leaks_split _ _ _ _ 0 (l_rows r) (streams tx)) by lia. ring.
Qed.
Print Assumptions C103_further_transmitters_refuted.
(** One receiving port, two transmitting ports with unit leakage: the second port's sample is left over. *)
Example C103_further_transmitters_met :
  exists out, remove_leakage (Calibration (Response 1 2 1 (fun _ _ _ => RtoC 1)) 1 0) (Dense 2 1 (fun _ _ => RtoC 1) 1 0 0) (Dense 1 1 (fun _ _ => RtoC 2) 1 0 0) = Ok out /\ at_ out 0 0 = RtoC 1.
Proof.
  destruct (C103_further_transmitters_refuted (Calibration (Response 1 2 1 (fun _ _ _ => RtoC 1)) 1 0) (Dense 2 1 (fun _ _ => RtoC 1) 1 0 0) (Dense 1 1 (fun _ _ => RtoC 2) 1 0 0) (fun _ _ => RtoC 0) 0) as (out & E & V); cbn; try lia; try reflexivity.
  - left; unfold Rabs; destruct (Rcase_abs _); lra.
  - intros i j Hi Hj. assert (i = 0) as -> by lia. assert (j = 0) as -> by lia. cbn. unfold leaks_later, leaks. cbn. apply injective_projections; cbn; lra.
  - exists out. split; [exact E|]. rewrite V by (cbn; lia). cbn. unfold leaks_later, leaks. cbn. apply injective_projections; cbn; lra.
Qed.

(** Refuted: that responses for fewer transmitting ports are applied to those ports. More transmitted streams, if there are enough receiving ports, are an error. *)
Theorem C103_unknown_transmitters_refuted : forall c tx rx s, let r := leakage_response c in
  rate tx = rate rx -> carrier tx = carrier rx -> 1 <= samples tx -> 1 <= streams rx -> l_cols r < streams tx -> l_cols r < l_rows r ->
  nearest ((model_delay c - (delay tx + delay rx)) * rate rx) (Z.of_nat s) -> s <= samples rx ->
  remove_leakage c tx rx = Raise IndexError.
Proof.
  intros c tx rx s r HR HC HN H0 H1 H2 HS HL. unfold remove_leakage. destruct (Req_EM_T (rate tx) (rate rx)); [|contradiction]. destruct (Req_EM_T (carrier tx) (carrier rx)); [|contradiction].
  destruct (Nat.ltb_spec (samples tx) 1); [lia|]. fold r.
  assert (K : round_even ((model_delay c - (delay tx + delay rx)) * rate rx) = Z.of_nat s) by (eapply nearest_unique; [apply round_even_nearest|exact HS]). rewrite K.
  assert (P : exists a b, pairs (Nat.min (streams rx) (l_rows r)) (Nat.min (streams tx) (l_rows r)) = map (fun k => (0, k)) (seq 0 (l_cols r)) ++ (a, l_cols r) :: b).
  { destruct (Nat.min (streams rx) (l_rows r)) as [|q] eqn:Q; [lia|]. unfold pairs. cbn [seq flat_map]. replace (Nat.min (streams tx) (l_rows r)) with (l_cols r + (1 + (Nat.min (streams tx) (l_rows r) - l_cols r - 1))) by lia.
    rewrite seq_app, map_app, <- app_assoc. cbn [seq map Nat.add app]. eauto. }
  destruct P as (a & b & P). rewrite P. clear P.
  assert (G : forall l y, (forall k, In k l -> k < l_cols r) -> exists e, remove_pairs r (Z.of_nat s) tx (samples rx) (map (fun k => (0, k)) l ++ (a, l_cols r) :: b) y = e /\ e = Raise IndexError).
  { induction l as [|k t IH]; intros y L.
    - cbn [map app remove_pairs remove_pair]. rewrite Nat.leb_refl. cbn [bind]. eauto.
    - cbn [map app remove_pairs remove_pair]. destruct (Nat.leb_spec (l_cols r) k) as [X|X]; [specialize (L k (or_introl eq_refl)); lia|].
      destruct (subtract_late s (leak_length (l_taps r) (samples tx)) (convolve_at (l_taps r) (samples tx) (l_e r 0 k) (at_ tx k)) (samples rx) (y 0) HL) as (row & E & _). rewrite E. cbn [bind]. apply IH. intros k' I. apply L. right. exact I. }
  destruct (G (seq 0 (l_cols r)) (at_ rx)) as (x & -> & ->); [|reflexivity]. intros k I. apply in_seq in I. lia.
Qed.
Print Assumptions C103_unknown_transmitters_refuted.
Example C103_unknown_transmitters_met : remove_leakage (Calibration (Response 2 1 1 (fun _ _ _ => RtoC 1)) 1 0) (Dense 2 1 (fun _ _ => RtoC 1) 1 0 0) (Dense 2 1 (fun _ _ => RtoC 2) 1 0 0) = Raise IndexError.
Proof. apply (C103_unknown_transmitters_refuted _ _ _ 0); cbn; try lia; try reflexivity. left; unfold Rabs; destruct (Rcase_abs _); lra. Qed.

(** Refuted: that leakage arriving after the reception is ignored. If its end is two samples or more past twice that distance, removing it is an error. *)
Theorem C103_late_leakage_refuted : forall c tx rx s, let r := leakage_response c in
  rate tx = rate rx -> carrier tx = carrier rx -> 1 <= samples tx -> 1 <= streams tx -> 1 <= streams rx -> 1 <= l_rows r -> 1 <= l_cols r -> 1 <= l_taps r ->
  nearest ((model_delay c - (delay tx + delay rx)) * rate rx) (Z.of_nat s) -> samples rx < s -> s + 2 <= samples rx + (l_taps r + samples tx - 1) ->
  remove_leakage c tx rx = Raise ValueError.
Proof.
  intros c tx rx s r HR HC HN H1 H2 H3 H4 H5 HS HL HW. unfold remove_leakage. destruct (Req_EM_T (rate tx) (rate rx)); [|contradiction]. destruct (Req_EM_T (carrier tx) (carrier rx)); [|contradiction].
  destruct (Nat.ltb_spec (samples tx) 1); [lia|]. fold r.
  assert (K : round_even ((model_delay c - (delay tx + delay rx)) * rate rx) = Z.of_nat s) by (eapply nearest_unique; [apply round_even_nearest|exact HS]). rewrite K.
  destruct (Nat.min (streams rx) (l_rows r)) as [|q] eqn:Q; [lia|]. destruct (Nat.min (streams tx) (l_rows r)) as [|q'] eqn:Q'; [lia|]. unfold pairs. cbn [seq flat_map map app remove_pairs remove_pair].
  destruct (Nat.leb_spec (l_cols r) 0); [lia|].
  assert (X : forall p y, subtract (Z.of_nat s) (leak_length (l_taps r) (samples tx)) p (samples rx) y = Raise ValueError).
  { intros p y. unfold subtract, leak_length. destruct (Nat.eqb_spec (l_taps r) 0); [lia|]. destruct (Z.leb_spec 0 (Z.of_nat s)); [|lia]. rewrite Nat2Z.id. set (len := l_taps r + samples tx - 1) in *.
    assert (W : Nat.min (s + len) (samples rx) - Nat.min s (samples rx) = 0) by lia. rewrite W. assert (PT : slice_stop len (Z.min (Z.of_nat (samples rx) - Z.of_nat s) (Z.of_nat len)) = samples rx + len - s).
    { unfold slice_stop. destruct (Z.ltb_spec (Z.min (Z.of_nat (samples rx) - Z.of_nat s) (Z.of_nat len)) 0); lia. }
    rewrite PT. destruct (Nat.eqb_spec (samples rx + len - s) 0); [lia|]. destruct (Nat.eqb_spec (samples rx + len - s) 1); [lia|]. reflexivity. }
  rewrite X. reflexivity.
Qed.
Print Assumptions C103_late_leakage_refuted.
Example C103_late_leakage_met : remove_leakage (Calibration (Response 1 1 1 (fun _ _ _ => RtoC 1)) 1 2) (Dense 1 3 (fun _ _ => RtoC 1) 1 0 0) (Dense 1 1 (fun _ _ => RtoC 2) 1 0 0) = Raise ValueError.
Proof. apply (C103_late_leakage_refuted _ _ _ 2); cbn; try lia; try reflexivity. left; unfold Rabs; destruct (Rcase_abs _); lra. Qed.

(** Refuted: that leakage which began [k] samples before the reception is removed. It stays in the last [k] samples of the overlap. *)
Theorem C103_early_leakage_refuted : forall c tx rx y k, let r := leakage_response c in let len := l_taps r + samples tx - 1 in
  rate tx = rate rx -> carrier tx = carrier rx -> 1 <= samples tx -> streams tx <= l_rows r -> streams tx <= l_cols r -> 1 <= l_taps r -> 1 <= k -> k <= Nat.min (samples rx) len ->
  nearest ((model_delay c - (delay tx + delay rx)) * rate rx) (- Z.of_nat k) ->
  (forall i j, i < streams rx -> j < samples rx -> at_ rx i j = (y i j + if i <? l_rows r then leaks (l_taps r) (samples tx) (l_e r) (at_ tx) 0 (streams tx) i (k + j) else RtoC 0)%C) ->
  exists out, remove_leakage c tx rx = Ok out /\ same_header out rx /\
    forall i j, i < streams rx -> j < samples rx -> at_ out i j = if (j + k <? Nat.min (samples rx) len) then y i j else at_ rx i j.
Proof.
  intros c tx rx y k r len HR HC HN H1 H2 H3 HK HM HS HY. unfold remove_leakage. destruct (Req_EM_T (rate tx) (rate rx)); [|contradiction]. destruct (Req_EM_T (carrier tx) (carrier rx)); [|contradiction].
  destruct (Nat.ltb_spec (samples tx) 1); [lia|]. fold r.
  assert (K : round_even ((model_delay c - (delay tx + delay rx)) * rate rx) = (- Z.of_nat k)%Z) by (eapply nearest_unique; [apply round_even_nearest|exact HS]). rewrite K.
  assert (LEN : leak_length (l_taps r) (samples tx) = len). { unfold leak_length. destruct (Nat.eqb_spec (l_taps r) 0); [lia|reflexivity]. }
  set (d := fun (mk : nat * nat) (j : nat) => if j <? Nat.min (samples rx) len - k then convolve_at (l_taps r) (samples tx) (l_e r (fst mk) (snd mk)) (at_ tx (snd mk)) (k + j) else RtoC 0).
  destruct (remove_pairs_ok r (- Z.of_nat k) tx (samples rx) d (pairs (Nat.min (streams rx) (l_rows r)) (Nat.min (streams tx) (l_rows r))) (at_ rx)) as (y' & -> & V).
  { intros m q y0 I. unfold pairs in I. apply in_flat_map in I as (m' & _ & I). apply in_map_iff in I as (q' & [= <- <-] & I). apply in_seq in I. split; [apply Nat.leb_gt; lia|]. rewrite LEN.
    destruct (subtract_early k len (convolve_at (l_taps r) (samples tx) (l_e r m' q') (at_ tx q')) (samples rx) (y0 m') HK HM) as (row & E & W). exists row. split; [exact E|]. intro j. rewrite W. reflexivity. }
  cbn [bind]. eexists. split; [reflexivity|]. split; [repeat split|]. cbn [at_]. intros i j Hi Hj. rewrite V. rewrite (lsum_pairs _ _ (fun mk => d mk j)). unfold d. cbn [fst snd].
  destruct (Nat.ltb_spec j (Nat.min (samples rx) len - k)) as [X|X]; destruct (Nat.ltb_spec (j + k) (Nat.min (samples rx) len)) as [X'|X']; try lia.
  - rewrite HY by assumption. destruct (Nat.ltb_spec i (Nat.min (streams rx) (l_rows r))); destruct (Nat.ltb_spec i (l_rows r)); try lia; [|ring]. rewrite leaks_csum, Nat.sub_0_r, Nat.min_l by lia. cbn [Nat.add]. ring.
  - destruct (i <? _); [rewrite csum_0|]; ring.
Qed.
Print Assumptions C103_early_leakage_refuted.
(** Four transmitted samples, of which the last three are received: the last one keeps its leakage. *)
Example C103_early_leakage_met :
  exists out, remove_leakage (Calibration (Response 1 1 1 (fun _ _ _ => RtoC 1)) 1 0) (Dense 1 4 (fun _ _ => RtoC 5) 1 0 1) (Dense 1 3 (fun _ _ => RtoC 5) 1 0 0) = Ok out /\ at_ out 0 0 = RtoC 0 /\ at_ out 0 1 = RtoC 0 /\ at_ out 0 2 = RtoC 5.
Proof.
  destruct (C103_early_leakage_refuted (Calibration (Response 1 1 1 (fun _ _ _ => RtoC 1)) 1 0) (Dense 1 4 (fun _ _ => RtoC 5) 1 0 1) (Dense 1 3 (fun _ _ => RtoC 5) 1 0 0) (fun _ _ => RtoC 0) 1) as (out & E & _ & V); cbn; try lia; try reflexivity.
  - left; unfold Rabs; destruct (Rcase_abs _); lra.
  - intros i j Hi Hj. assert (i = 0) as -> by lia. destruct j as [|[|[|j]]]; [| | |lia]; cbn; unfold leaks; cbn; apply injective_projections; cbn; lra.
  - exists out. split; [exact E|]. rewrite !V by (cbn; lia). cbn. repeat split.
Qed.

(** ** Estimation *)
(** If the hardware does nothing but leak, with impulse responses no longer than the probing sequences, the least squares estimate is the leakage, followed by zeros. *)
Theorem C103_estimates_are_exact : forall h taps tx rx n probes fs tau, 1 <= n -> taps <= n -> 1 <= probes -> (0 < fs)%R -> (0 <= tau)%R ->
  exists c, least_squares (leaking_hardware taps tx (3 * n) h) probes n tx rx fs tau None None = Ok c /\ model_rate c = fs /\ model_delay c = tau /\
    l_rows (leakage_response c) = rx /\ l_cols (leakage_response c) = tx /\ l_taps (leakage_response c) = n /\
    forall m k t, m < rx -> k < tx -> t < n -> l_e (leakage_response c) m k t = if t <? taps then h m k t else RtoC 0.
Proof.
  intros h taps tx rx n probes fs tau Hn HT Hp Hf Ht. unfold least_squares. cbn [select bind check]. destruct (Nat.ltb_spec probes 1); [lia|]. destruct (Nat.ltb_spec n 1); [lia|].
  unfold make_calibration. destruct (Rle_dec fs 0); [lra|]. destruct (Rlt_dec tau 0); [lra|]. eexists. split; [reflexivity|]. cbn [model_rate model_delay leakage_response l_rows l_cols l_taps l_e]. rewrite !seq_length. do 5 (split; [reflexivity|]).
  intros m k t Hm Hk Htt. rewrite !seq_nth by assumption. cbn [Nat.add]. apply estimated; assumption.
Qed.
Print Assumptions C103_estimates_are_exact.
Example C103_estimates_are_exact_met : 1 <= 3 /\ 2 <= 3 /\ (0 < 1)%R. Proof. repeat split; try lia; lra. Qed.

(** Calibrating and then removing: whatever else is received remains, for hardware with at least as many receiving as transmitting ports. *)
Theorem C103_calibrated_devices_hear_only_the_rest : forall h taps tx rx n probes fs signal reception y,
  1 <= n -> taps <= n -> 1 <= probes -> (0 < fs)%R -> tx <= rx ->
  streams signal = tx -> streams reception = rx -> rate signal = fs -> rate reception = fs -> carrier signal = carrier reception -> delay signal = 0%R -> delay reception = 0%R -> 1 <= samples signal ->
  (forall i j, i < rx -> j < samples reception -> at_ reception i j = (y i j + leaking_hardware taps tx (samples signal) h (at_ signal) i j)%C) ->
  exists c out, least_squares (leaking_hardware taps tx (3 * n) h) probes n tx rx fs 0 None None = Ok c /\ remove_leakage c signal reception = Ok out /\
    same_header out reception /\ forall i j, i < rx -> j < samples reception -> at_ out i j = y i j.
Proof.
  intros h taps tx rx n probes fs signal reception y Hn HT Hp Hf HX S1 S2 R1 R2 HC D1 D2 HN HY. destruct (C103_estimates_are_exact h taps tx rx n probes fs 0 Hn HT Hp Hf) as (c & E & M1 & M2 & L1 & L2 & L3 & V); [lra|].
  exists c. destruct (C103_leakage_is_removed c signal reception y 0) as (out & O & SH & W); try congruence; try lia.
  - rewrite M2, D1, D2. replace ((0 - (0 + 0)) * rate reception)%R with 0%R by ring. left; cbn [Z.of_nat]; unfold Rabs; destruct (Rcase_abs _); lra.
  - intros i j Hi Hj. rewrite HY by lia. f_equal. rewrite L1. destruct (Nat.ltb_spec i rx); [|lia]. unfold leaks_later, leaking_hardware. cbn [Nat.leb]. rewrite !leaks_csum, L3, S1, !Nat.sub_0_r. cbn [Nat.add].
    apply csum_ext. intros q Hq. symmetry. apply convolve_padded; [exact HT|]. intros t Ht. apply V; lia.
  - exists out. repeat split; try assumption; try apply SH. intros i j Hi Hj. apply W; lia.
Qed.
Print Assumptions C103_calibrated_devices_hear_only_the_rest.
Example C103_calibrated_devices_met : exists c out, least_squares (leaking_hardware 1 1 (3 * 2) (fun _ _ _ => RtoC 3)) 1 2 1 1 1 0 None None = Ok c /\
  remove_leakage c (Dense 1 1 (fun _ _ => RtoC 1) 1 0 0) (Dense 1 1 (fun _ _ => RtoC 5) 1 0 0) = Ok out /\ at_ out 0 0 = RtoC 2.
Proof.
  destruct (C103_calibrated_devices_hear_only_the_rest (fun _ _ _ => RtoC 3) 1 1 1 2 1 1 (Dense 1 1 (fun _ _ => RtoC 1) 1 0 0) (Dense 1 1 (fun _ _ => RtoC 5) 1 0 0) (fun _ _ => RtoC 2)) as (c & out & E & O & _ & V); cbn; try lia; try lra; try reflexivity.
  - intros i j Hi Hj. assert (j = 0) as -> by lia. unfold leaking_hardware, leaks. cbn. apply injective_projections; cbn; lra.
  - exists c, out. split; [exact E|]. split; [exact O|]. apply V; cbn; lia.
Qed.

(** Estimations with a negative delay calibration, an invalid number of probes or of samples are refused. *)
Theorem C103_refused_estimates : forall trigger probes n tx rx fs tau, (tau < 0)%R \/ (fs <= 0)%R \/ probes = 0 \/ n = 0 -> least_squares trigger probes n tx rx fs tau None None = Raise ValueError.
Proof.
  intros trigger probes n tx rx fs tau H. unfold least_squares. cbn [select bind check]. destruct (Nat.ltb_spec probes 1); [reflexivity|]. destruct (Nat.ltb_spec n 1); [reflexivity|].
  unfold make_calibration. destruct (Rle_dec fs 0); [reflexivity|]. destruct (Rlt_dec tau 0); [reflexivity|]. destruct H as [H|[H|[H|H]]]; lra || lia.
Qed.
Print Assumptions C103_refused_estimates.

(** Refuted: that several transmitting and several receiving ports can be selected. *)
Theorem C103_selected_ports_refuted : forall trigger probes n tx rx fs tau a b l a' b' l' c, least_squares trigger probes n tx rx fs tau (Some (a :: b :: l)) (Some (a' :: b' :: l')) <> Ok c.
Proof.
  intros. unfold least_squares. cbn [select bind]. destruct (probes <? 1); [discriminate|]. destruct (n <? 1); [discriminate|]. cbn [check]. destruct (forallb _ (a :: b :: l)); [|discriminate]. cbn [bind].
  destruct (forallb _ (a' :: b' :: l')); [|discriminate]. cbn [bind]. destruct (_ =? _); discriminate.
Qed.
Print Assumptions C103_selected_ports_refuted.

(** Refuted: that a calibration of one receiving port corrects that port. It corrects the first port instead, and leaves the calibrated port as it is. *)
Theorem C103_selected_receiver_refuted : forall h taps tx rx n probes fs p signal reception, 1 <= n -> taps <= n -> 1 <= probes -> (0 < fs)%R -> 1 <= p -> p < rx -> 1 <= tx ->
  streams signal = tx -> streams reception = rx -> rate signal = fs -> rate reception = fs -> carrier signal = carrier reception -> delay signal = 0%R -> delay reception = 0%R -> 1 <= samples signal ->
  exists c out, least_squares (leaking_hardware taps tx (3 * n) h) probes n tx rx fs 0 None (Some [p]) = Ok c /\ remove_leakage c signal reception = Ok out /\
    forall j, j < samples reception -> at_ out p j = at_ reception p j /\ at_ out 0 j = (at_ reception 0 j - leaks taps (samples signal) h (at_ signal) 0 1 p j)%C.
Proof.
  intros h taps tx rx n probes fs p signal reception Hn HT Hp Hf P1 P2 HX S1 S2 R1 R2 HC D1 D2 HN. unfold least_squares. cbn [select bind]. destruct (Nat.ltb_spec p rx); [|lia]. destruct (Nat.ltb_spec probes 1); [lia|]. destruct (Nat.ltb_spec n 1); [lia|].
  cbn [check bind]. unfold make_calibration. destruct (Rle_dec fs 0); [lra|]. destruct (Rlt_dec 0 0); [lra|]. eexists. match goal with |- exists out, Ok ?c = Ok _ /\ _ => set (cal := c) end.
  destruct (removed cal signal reception 0) as (out & O & SH & W); try congruence; try lia.
  - cbn. rewrite seq_length. lia.
  - cbn [cal model_delay]. rewrite D1, D2. replace ((0 - (0 + 0)) * rate reception)%R with 0%R by ring. left; cbn [Z.of_nat]; unfold Rabs; destruct (Rcase_abs _); lra.
  - exists out. split; [reflexivity|]. split; [exact O|]. intros j Hj. rewrite !W by lia. cbn [cal leakage_response l_rows length]. destruct (Nat.ltb_spec p 1); [lia|]. split; [ring|]. cbn [Nat.ltb Nat.leb]. f_equal. f_equal.
    unfold leaks_later. cbn [Nat.leb]. rewrite !Nat.sub_0_r, Nat.min_r by lia. rewrite !leaks_csum. cbn [Nat.sub csum Nat.add]. f_equal. cbn [cal leakage_response l_taps l_e nth]. rewrite seq_nth by lia. cbn [Nat.add]. apply convolve_padded; [exact HT|]. intros t Ht. apply estimated; lia.
Qed.
Print Assumptions C103_selected_receiver_refuted.
Example C103_selected_receiver_met : 1 <= 1 /\ 1 < 2 /\ streams (Dense 1 1 (fun _ _ => RtoC 1) 1 0 0) = 1. Proof. cbn. lia. Qed.
