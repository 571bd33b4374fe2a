(** C78 and C79: leakage of transmitted signals into a device's own receiver, and mutual coupling of its antennas. *)
From Coq Require Import List Reals Bool Arith Lia Lra FunctionalExtensionality.
From Coquelicot Require Import Complex.
From Verif Require Import Base BaseLemmas Cplx Cplx_Proofs Chan_Model Chan_Spec Chan_Proofs Iso_Model Iso_Spec Iso_Proofs.
Import ListNotations.
Open Scope R_scope.

Definition ex_device : device := Device 1 1 1.
Definition ex_two : device := Device 2 2 2.
Definition ex_block (n : nat) : blk := Blk n 3 0 (fun i j => RtoC (INR (i + j))).
Definition ex_signal (n : nat) : sig := Sig n 0 [ex_block n].

(** ** C78 *)

(** All models refuse to leak for a floating device, without a signal and for a signal of another number of streams. *)
Theorem C78_requests_are_checked : forall rate st r s,
  (perfect_leak None s = Raise RuntimeError /\ specific_leak rate None st s = Raise RuntimeError /\ selective_leak None r s = Raise RuntimeError) /\
  forall d, match s with None => True | Some sg => n_tx d <> s_streams sg end ->
    perfect_leak (Some d) s = Raise ValueError /\ specific_leak rate (Some d) st s = Raise ValueError /\ selective_leak (Some d) r s = Raise ValueError.
Proof.
  intros rate st r s. split; [repeat split|]. intros d H. unfold perfect_leak, specific_leak, selective_leak, assert_leaking.
  destruct s as [sg|]; [|repeat split]. apply Nat.eqb_neq in H. rewrite H. repeat split.
Qed.
Print Assumptions C78_requests_are_checked.
Example C78_requests_met : n_tx ex_two <> s_streams (ex_signal 1).
Proof. cbn. lia. Qed.

(** Perfect isolation leaks no sample to any of the receiving antennas. *)
Theorem C78_perfect_isolation_leaks_nothing : forall d s, n_tx d = s_streams s ->
  exists y, perfect_leak (Some d) (Some s) = Ok y /\ x_num_streams y = n_rx d /\
    Forall (fun b => x_streams b = n_rx d /\ x_samples b = 0%nat) (x_blocks y).
Proof.
  intros d s H. unfold perfect_leak. rewrite assert_ok by exact H. eexists. split; [reflexivity|]. split; [reflexivity|]. repeat constructor.
Qed.
Print Assumptions C78_perfect_isolation_leaks_nothing.
Example C78_perfect_met : n_tx ex_device = s_streams (ex_signal 1).
Proof. reflexivity. Qed.

(** Specific isolation: every receiving antenna gets the sum of the transmitted streams, each attenuated by the square root of the
    isolation between both antennas; blocks keep their place in time. *)
Theorem C78_specific_isolation : forall rate d before after m s,
  set_isolation (Some d) (Matrix m) before = Ok after ->
  r_rows m = n_rx d -> r_cols m = n_tx d -> (forall i t, (i < n_rx d)%nat -> (t < n_tx d)%nat -> 0 < r_e m i t) ->
  n_tx d = s_streams s -> uniform s ->
  isolation after = Some m /\
  exists y, specific_leak rate (Some d) after (Some s) = Ok y /\ x_num_streams y = n_rx d /\
    Forall2 (fun b z => combines (fun i t => RtoC (/ sqrt (r_e m i t))) (n_rx d) b z /\
                        x_delay y + INR (x_offset z) / rate = s_delay s + INR (offset b) / rate) (s_blocks s) (x_blocks y).
Proof.
  intros rate d before after m s Hs Hr Hc Hp Hn Hu. cbn in Hs. injection Hs as <-. split; [reflexivity|].
  unfold specific_leak. rewrite assert_ok by exact Hn. cbn [bind factors rows cols]. rewrite Hr, Hc, !Nat.eqb_refl. cbn [negb].
  set (M := Mat (n_rx d) (n_tx d) (fun i j => power_neg_half (r_e m i j))).
  destruct (mapM_apply M (fun i t => RtoC (/ sqrt (r_e m i t))) (s_blocks s)) as [ys [E F]].
  - intros i t Hi Ht. cbn [M e]. apply power_neg_half_pos. apply Hp; assumption.
  - eapply Forall_impl; [|exact Hu]. intros b Hb. cbn in Hb |- *. congruence.
  - rewrite E. cbn [bind]. eexists. split; [reflexivity|]. cbn [M rows] in F |- *.
    destruct F as [|b z l ys [Cz Oz] F]; [split; [reflexivity|constructor]|].
    destruct F as [|b2 z2 l ys [Cz2 Oz2] F].
    + cbn [create x_num_streams x_blocks x_delay]. split; [reflexivity|]. constructor; [|constructor]. split.
      * exact Cz.
      * cbn [x_offset INR]. rewrite Oz. unfold Rdiv. lra.
    + cbn [create x_num_streams x_blocks x_delay]. split; [reflexivity|].
      constructor; [split; [exact Cz|rewrite Oz; reflexivity]|]. constructor; [split; [exact Cz2|rewrite Oz2; reflexivity]|].
      clear -F. induction F as [|b z l ys [Cz Oz] F IH]; constructor; auto. split; [exact Cz|rewrite Oz; reflexivity].
Qed.
Print Assumptions C78_specific_isolation.
Example C78_specific_met : set_isolation (Some ex_two) (Matrix (RMat 2 2 (fun i t => INR (1 + i + t)))) new_specific =
    Ok (Specific (Some (RMat 2 2 (fun i t => INR (1 + i + t)))) (Some (Mat 2 2 (fun i j => power_neg_half (INR (1 + i + j)))))) /\
  (forall i t : nat, 0 < INR (1 + i + t)) /\ uniform (ex_signal 2).
Proof. split; [reflexivity|]. split; [intros; apply lt_0_INR; lia|]. repeat constructor. Qed.

(** A single antenna: the isolation is the ratio of transmitted and leaked power, for every sample. *)
Theorem C78_isolation_is_a_power_ratio : forall rate before after r s b z y j,
  set_isolation (Some (Device 1 1 1)) (Scalar r) before = Ok after -> 0 < r ->
  s_streams s = 1%nat -> s_blocks s = [b] -> streams b = 1%nat -> (j < samples b)%nat ->
  specific_leak rate (Some (Device 1 1 1)) after (Some s) = Ok y -> x_blocks y = [z] ->
  exists v, x_at z 0 j = Some v /\ (Cmod v) ^ 2 * r = (Cmod (x b 0%nat j)) ^ 2.
Proof.
  intros rate before after r s b z y j Hs Hr Hn Hb Hst Hj Hl Hz. cbn in Hs. injection Hs as <-.
  unfold specific_leak in Hl. rewrite assert_ok in Hl by (cbn; congruence). cbn [bind factors rows cols n_rx n_tx Nat.eqb negb r_rows r_cols] in Hl.
  rewrite Hb in Hl. cbn [mapM] in Hl. rewrite apply_ok in Hl by (cbn [cols]; congruence). cbn [bind create rows cols e x_streams x_samples x_at] in Hl.
  injection Hl as <-. cbn [x_blocks] in Hz. injection Hz as <-. cbn [x_at esum r_e]. rewrite power_neg_half_pos by exact Hr. cbn [times plus].
  eexists. split; [reflexivity|]. rewrite Cplus_0_l, Cmod_mult, Cmod_R, Rpow_mult_distr.
  assert (P : 0 < sqrt r) by (apply sqrt_lt_R0; exact Hr).
  rewrite Rabs_right by (left; apply Rinv_0_lt_compat; exact P). replace ((/ sqrt r) ^ 2) with (/ r).
  - field. lra.
  - rewrite <- (sqrt_sqrt r) at 1 by lra. field. lra.
Qed.
Print Assumptions C78_isolation_is_a_power_ratio.
Example C78_power_ratio_met : exists after y z, set_isolation (Some (Device 1 1 1)) (Scalar 100) new_specific = Ok after /\
  specific_leak 1 (Some (Device 1 1 1)) after (Some (ex_signal 1)) = Ok y /\ x_blocks y = [z].
Proof. eexists. eexists. eexists. split; [reflexivity|]. split; reflexivity. Qed.

(** Isolations that are not positive make the leaked samples of the receiving antenna infinite or undefined. *)
Theorem C78_not_positive_isolations : forall rate d before after m s i t, 
  set_isolation (Some d) (Matrix m) before = Ok after ->
  r_rows m = n_rx d -> r_cols m = n_tx d -> n_tx d = s_streams s -> uniform s -> (t < n_tx d)%nat -> r_e m i t <= 0 ->
  exists y, specific_leak rate (Some d) after (Some s) = Ok y /\ Forall (fun z => forall j, x_at z i j = None) (x_blocks y).
Proof.
  intros rate d before after m s i t Hs Hr Hc Hn Hu Ht Hle. cbn in Hs. injection Hs as <-.
  unfold specific_leak. rewrite assert_ok by exact Hn. cbn [bind factors rows cols]. rewrite Hr, Hc, !Nat.eqb_refl. cbn [negb].
  set (M := Mat (n_rx d) (n_tx d) (fun i j => power_neg_half (r_e m i j))).
  assert (G : forall l, Forall (fun b => streams b = n_tx d) l -> exists ys, mapM (apply M) l = Ok ys /\ Forall (fun z => forall j, x_at z i j = None) ys).
  { induction l as [|b l IH]; intro HF; [exists []; split; constructor|]. inversion HF as [|b' l' Hb Hl]; subst b' l'. destruct (IH Hl) as [ys [E F]].
    cbn [mapM]. rewrite apply_ok by (cbn [M cols]; congruence). cbn [bind]. rewrite E. eexists. split; [reflexivity|]. constructor; [|exact F].
    intro j. cbn [x_at]. apply esum_none with (k := t); [exact Ht|]. cbn [M e]. rewrite power_neg_half_none by exact Hle. reflexivity. }
  destruct (G (s_blocks s)) as [ys [E F]]; [eapply Forall_impl; [|exact Hu]; cbn; congruence|].
  rewrite E. eexists. split; [reflexivity|]. destruct ys as [|z [|z2 ys]]; cbn [create x_blocks]; auto.
  inversion F as [|z' l' Hz Hl]; subst z' l'. repeat constructor. exact Hz.
Qed.
Print Assumptions C78_not_positive_isolations.
Example C78_not_positive_met : exists after, set_isolation (Some ex_two) (Matrix (RMat 2 2 (fun i t => INR (i * t)))) new_specific = Ok after /\ INR (0 * 1) <= 0.
Proof. eexists. split; [reflexivity|]. cbn. lra. Qed.

(** Without an isolation, or with one of another shape than the antennas, nothing leaks but an error is raised. *)
Theorem C78_unspecified_isolation : forall rate d s, n_tx d = s_streams s ->
  specific_leak rate (Some d) new_specific (Some s) = Raise RuntimeError /\
  forall before after m, set_isolation (Some d) (Matrix m) before = Ok after -> (r_rows m <> n_rx d \/ r_cols m <> n_tx d) ->
    specific_leak rate (Some d) after (Some s) = Raise RuntimeError.
Proof.
  intros rate d s Hn. unfold specific_leak. rewrite assert_ok by exact Hn. cbn [bind new_specific factors]. split; [reflexivity|].
  intros before after m Hs Hd. cbn in Hs. injection Hs as <-. cbn [factors rows cols].
  destruct (Nat.eqb_spec (r_rows m) (n_rx d)) as [E1|E1]; cbn [negb]; [|reflexivity].
  destruct (Nat.eqb_spec (r_cols m) (n_tx d)) as [E2|E2]; cbn [negb]; [|reflexivity]. destruct Hd; contradiction.
Qed.
Print Assumptions C78_unspecified_isolation.
Example C78_unspecified_met : n_tx ex_two = s_streams (ex_signal 2) /\ r_rows (RMat 1 2 (fun _ _ => 1)) <> n_rx ex_two.
Proof. split; [reflexivity|cbn; lia]. Qed.
(** Scalars are for single antennas, arrays must have two dimensions; the isolation set before stays. *)
Theorem C78_invalid_isolations : forall d r before,
  set_isolation d OtherDimensions before = Raise ValueError /\
  (forall dev, d = Some dev -> n_antennas dev <> 1%nat -> set_isolation d (Scalar r) before = Raise ValueError) /\
  (forall dev, d = Some dev -> n_antennas dev = 1%nat -> exists after, set_isolation d (Scalar r) before = Ok after /\
     exists m, isolation after = Some m /\ r_rows m = 1%nat /\ r_cols m = 1%nat /\ r_e m 0%nat 0%nat = r).
Proof.
  intros d r before. split; [reflexivity|]. split; intros dev -> H; cbn [set_isolation].
  - apply Nat.eqb_neq in H. rewrite H. reflexivity.
  - rewrite H. cbn [Nat.eqb]. eexists. split; [reflexivity|]. eexists. repeat split; reflexivity.
Qed.
Print Assumptions C78_invalid_isolations.
Example C78_invalid_met : n_antennas ex_two <> 1%nat.
Proof. cbn. lia. Qed.
(** Clearing the isolation does not stop the leakage: the factors of the isolation set before are still applied. *)
Theorem C78_cleared_isolations_stop_leaking_refuted :
  ~ (forall rate d st after s, set_isolation (Some d) NoIsolation st = Ok after -> specific_leak rate (Some d) after (Some s) = Raise RuntimeError) /\
  (forall rate d st after s, set_isolation (Some d) NoIsolation st = Ok after ->
     isolation after = None /\ specific_leak rate (Some d) after s = specific_leak rate (Some d) st s).
Proof.
  split.
  - intro H. specialize (H 1 ex_device (Specific None (Some (Mat 1 1 (fun _ _ => power_neg_half 1)))) _ (ex_signal 1) eq_refl). discriminate.
  - intros rate d st after s H. cbn in H. injection H as <-. split; reflexivity.
Qed.
Print Assumptions C78_cleared_isolations_stop_leaking_refuted.

(** Selective leakage filters the streams with its impulse responses, exactly as a static channel of these responses would. *)
Theorem C78_selective_leakage : forall d r s b, n_tx d = s_streams s -> s_blocks s = [b] -> offset b = 0%nat -> streams b = s_streams s ->
  (0 < samples b)%nat -> (0 < l_taps r)%nat -> l_cols r = n_tx d ->
  exists y z, selective_leak (Some d) r (Some s) = Ok y /\
    csi_propagate (impulse_csi (l_rows r) (l_cols r) (samples b) (l_taps r) (fun i t _ k => l_e r i t k)) b = Ok z /\
    streams y = l_rows r /\ samples y = (samples b + l_taps r - 1)%nat /\ same_samples y z.
Proof.
  intros d r s b Hn Hb Ho Hs Hj Ht Hc.
  destruct (csi_propagate_received (impulse_csi (l_rows r) (l_cols r) (samples b) (l_taps r) (fun i t _ k => l_e r i t k)) b eq_refl Ht ltac:(cbn; congruence) ltac:(cbn; lia))
    as [z [Ez [Sz [Nz Xz]]]].
  unfold selective_leak. rewrite assert_ok by exact Hn. cbn [bind snd]. rewrite Hb. cbn [dense_samples map fold_right]. rewrite Nat.max_0_r, Ho, Nat.add_0_l.
  destruct (Nat.eqb_spec (samples b) 0) as [E0|_]; [lia|]. destruct (Nat.eqb_spec (l_taps r) 0) as [E0|_]; [lia|]. cbn [orb].
  assert (El : Nat.ltb (l_cols r) (s_streams s) = false) by (apply Nat.ltb_ge; lia). rewrite El, andb_false_r.
  eexists. exists z. split; [reflexivity|]. split; [exact Ez|]. cbn [streams samples]. split; [reflexivity|]. split; [lia|].
  cbn [impulse_csi nrx ntaps] in Sz, Nz. split; [cbn; congruence|]. split; [cbn [samples]; lia|].
  intros i j Hi Hjj. cbn [streams samples] in Hi, Hjj. cbn [x]. rewrite Xz by (cbn [impulse_csi nrx ntaps]; lia).
  rewrite fold_csum. unfold received, csi_taps. rewrite total_map, total_seq. cbn [impulse_csi ntaps td weight h].
  rewrite csum_swap. rewrite Hs. apply csum_ext. intros t _. unfold convolve_at. apply csum_ext. intros k _.
  unfold dense_at. cbn [fold_left]. rewrite Ho, Nat.sub_0_r. cbn [Nat.leb andb].
  destruct (Nat.leb_spec k j) as [L|L]; cbn [andb]; [|reflexivity].
  destruct (Nat.ltb_spec (j - k) (samples b)) as [M|M].
  - destruct (Nat.ltb_spec j (k + samples b)) as [N|N]; [|lia]. rewrite Nat.add_0_l. destruct (Nat.ltb_spec (j - k) (samples b)); [reflexivity|lia].
  - destruct (Nat.ltb_spec j (k + samples b)) as [N|N]; [lia|reflexivity].
Qed.
Print Assumptions C78_selective_leakage.
Example C78_selective_met : s_blocks (ex_signal 2) = [ex_block 2] /\ (0 < samples (ex_block 2))%nat /\
  l_cols (Response 2 2 5 (fun i t k => RtoC (INR (i + t + k)))) = n_tx ex_two.
Proof. repeat split; cbn; lia. Qed.
(** Responses are not compared with the receiving antennas, so that the leaking signal may have other streams than the receiver. *)
Theorem C78_selective_streams_refuted :
  ~ (forall d r s y, selective_leak (Some d) r (Some s) = Ok y -> streams y = n_rx d).
Proof.
  intro H. specialize (H ex_device (Response 3 1 1 (fun _ _ _ => RtoC 1)) (ex_signal 1) _ eq_refl). cbn in H. lia.
Qed.
Print Assumptions C78_selective_streams_refuted.

(** ** C79 *)

(** Signals of another number of streams than antennas are refused; blocks are modelled one by one at their places. *)
Theorem C79_streams_are_checked : forall n f s, n <> s_streams s -> couple n f s = Raise ValueError.
Proof. intros n f s H. unfold couple. apply Nat.eqb_neq in H. rewrite H. reflexivity. Qed.
Print Assumptions C79_streams_are_checked.
Example C79_streams_met : 1%nat <> s_streams (ex_signal 2).
Proof. cbn. lia. Qed.
Theorem C79_perfect_coupling : forall n s, n = s_streams s -> exists ys, couple n perfect_coupling s = Ok ys /\
  Forall2 (fun b y => x_streams y = streams b /\ x_samples y = samples b /\ x_offset y = offset b /\ forall i j, x_at y i j = Some (x b i j)) (s_blocks s) ys.
Proof.
  intros n s ->. unfold couple. rewrite Nat.eqb_refl. induction (s_blocks s) as [|b l [ys [E F]]]; [exists []; split; constructor|].
  cbn [mapM perfect_coupling bind]. rewrite E. cbn [bind]. eexists. split; [reflexivity|]. constructor; [repeat split|exact F].
Qed.
Print Assumptions C79_perfect_coupling.
Example C79_perfect_met : exists ys, couple 2 perfect_coupling (ex_signal 2) = Ok ys /\ length ys = 1%nat.
Proof. eexists. split; reflexivity. Qed.

(** Correlations and impedances must be square matrices. *)
Theorem C79_only_square_matrices : forall a m, set_correlation (Some a) = Ok m -> exists n, shape a = [n; n] /\ exists r, m = Some r /\ r_rows r = n /\ r_cols r = n /\ r_e r = entry a.
Proof.
  intros [sh en] m H. cbn [set_correlation shape] in H. destruct sh as [|r [|c [|k sh]]]; try discriminate.
  destruct (Nat.eqb_spec r c) as [->|N]; [|discriminate]. injection H as <-. exists c. split; [reflexivity|]. eexists. repeat split; reflexivity.
Qed.
Print Assumptions C79_only_square_matrices.
Example C79_square_met : exists m, set_correlation (Some (Array [2; 2]%nat (fun i j => INR (i + j)))) = Ok m.
Proof. eexists. reflexivity. Qed.

(** Transmitting: the roots are taken of every entry, so that for impedances with positive real parts everywhere and correlations without negative
    entries the transmitted streams are the combinations given by the product of both matrices. *)
Theorem C79_transmitted_streams : forall c n z r b, transmit_impedance c = Some z -> transmit_correlation c = Some r ->
  c_rows z = n -> c_cols z = n -> r_rows r = n -> r_cols r = n -> streams b = n ->
  (forall i k, (i < n)%nat -> (k < n)%nat -> 0 < fst (c_e z i k)) -> (forall k t, (k < n)%nat -> (t < n)%nat -> 0 <= r_e r k t) ->
  exists y, impedance_transmit c n b = Ok y /\ x_offset y = offset b /\
    combines (fun i t => csum (fun k => RtoC (/ sqrt (fst (c_e z i k)) * sqrt (r_e r k t))) n) n b y.
Proof.
  intros c n z r b Ez Er Z1 Z2 R1 R2 Hb Hz Hr. unfold impedance_transmit, transmit_coupling. rewrite Ez, Er. cbn [or_ceye or_eye].
  unfold matmul. cbn [cols rows e]. rewrite Z2, R1, R2, Z1, Nat.eqb_refl. cbn [bind].
  match goal with |- exists y, apply ?m b = _ /\ _ => destruct (apply_combines m b (fun i t => csum (fun k => RtoC (/ sqrt (fst (c_e z i k)) * sqrt (r_e r k t))) n)) as [y [Ey [Cy Oy]]] end.
  - cbn [cols]. congruence.
  - cbn [rows cols e]. intros i t Hi Ht. apply esum_finite. intros k Hk. unfold Re_. rewrite power_neg_half_pos by (apply Hz; assumption).
    rewrite power_half_nn by (apply Hr; assumption). cbn [times]. f_equal. rewrite RtoC_mult. reflexivity.
  - exists y. auto.
Qed.
Print Assumptions C79_transmitted_streams.
Example C79_transmitted_met : forall i k : nat, 0 < fst (RtoC (INR (1 + i + k))) /\ 0 <= INR (i + k).
Proof. intros. split; [cbn [fst RtoC]; apply lt_0_INR; lia|apply pos_INR]. Qed.

(** The default impedances and correlations are those of uncoupled antennas.  A single antenna transmits what it is given, ... *)
Theorem C79_default_transmission_of_one_antenna : forall b, streams b = 1%nat ->
  exists y, impedance_transmit default_impedance 1 b = Ok y /\ x_streams y = 1%nat /\ x_samples y = samples b /\ forall j, x_at y 0 j = Some (x b 0%nat j).
Proof.
  intros b Hb. unfold impedance_transmit, transmit_coupling, matmul. cbn [default_impedance transmit_impedance transmit_correlation or_ceye or_eye c_rows c_cols r_rows r_cols rows cols Nat.eqb bind].
  rewrite apply_ok by (cbn [cols]; congruence). eexists. split; [reflexivity|]. cbn [x_streams x_samples rows]. split; [reflexivity|]. split; [reflexivity|].
  intro j. cbn [x_at cols esum e c_e r_e eye Nat.eqb Re_ RtoC fst]. unfold eye. cbn [Nat.eqb fst]. rewrite power_neg_half_pos by lra. rewrite power_half_nn by lra. cbn [times plus]. f_equal.
  rewrite sqrt_1, Rinv_1. ring.
Qed.
Print Assumptions C79_default_transmission_of_one_antenna.
Example C79_one_antenna_met : streams (ex_block 1) = 1%nat.
Proof. reflexivity. Qed.
(** ... but of two or more antennas every single sample becomes infinite or undefined. *)
Theorem C79_default_transmission_refuted :
  (forall n b i j, (1 < n)%nat -> streams b = n -> (i < n)%nat -> exists y, impedance_transmit default_impedance n b = Ok y /\ x_at y i j = None) /\
  ~ (forall n b, streams b = n -> exists y, impedance_transmit default_impedance n b = Ok y /\
       forall i j, (i < n)%nat -> (j < samples b)%nat -> x_at y i j = Some (x b i j)).
Proof.
  assert (G : forall n b i j, (1 < n)%nat -> streams b = n -> (i < n)%nat -> exists y, impedance_transmit default_impedance n b = Ok y /\ x_at y i j = None).
  { intros n b i j Hn Hb Hi. unfold impedance_transmit, transmit_coupling, matmul.
    cbn [default_impedance transmit_impedance transmit_correlation or_ceye or_eye c_rows c_cols r_rows r_cols rows cols]. rewrite Nat.eqb_refl. cbn [bind].
    rewrite apply_ok by (cbn [cols]; congruence). eexists. split; [reflexivity|]. cbn [x_at cols e].
    apply esum_none with (k := 0%nat); [lia|]. rewrite (esum_none _ n (if Nat.eqb i 0 then 1%nat else 0%nat)); [reflexivity| |].
    - destruct (Nat.eqb_spec i 0); lia.
    - unfold c_e, eye. replace (Nat.eqb i (if Nat.eqb i 0 then 1%nat else 0%nat)) with false; [rewrite power_neg_half_none by (cbn; lra); reflexivity|].
      symmetry. apply Nat.eqb_neq. destruct (Nat.eqb_spec i 0); lia. }
  split; [exact G|]. intro H. destruct (H 2%nat (ex_block 2) eq_refl) as [y [E F]]. destruct (G 2%nat (ex_block 2) 0%nat 0%nat) as [y' [E' F']]; [lia|reflexivity|lia|].
  rewrite E in E'. injection E' as <-. rewrite F in F' by (cbn; lia). discriminate.
Qed.
Print Assumptions C79_default_transmission_refuted.

(** Receiving with the defaults hands all streams on unchanged, whatever the number of antennas. *)
Theorem C79_default_reception : forall inv n b, finds_inverse inv (two_eye n) -> (0 < n)%nat -> streams b = n ->
  exists y, impedance_receive inv default_impedance n b = Ok y /\ x_streams y = n /\ x_samples y = samples b /\ x_offset y = offset b /\
    forall i j, (i < n)%nat -> (j < samples b)%nat -> x_at y i j = Some (x b i j).
Proof.
  intros inv n b Hinv Hn Hb. unfold impedance_receive, receive_coupling.
  cbn [default_impedance receive_impedance receive_correlation matching_impedance or_ceye or_eye c_rows c_cols r_rows r_cols].
  destruct (Nat.eqb_spec n 0) as [E|_]; [lia|]. rewrite Nat.eqb_refl. cbn [orb andb negb].
  set (S2 := CMat n n _). assert (ES : S2 = two_eye n).
  { unfold S2, two_eye. f_equal. apply functional_extensionality. intro p. apply functional_extensionality. intro q. cbn [c_e r_e]. unfold eye. destruct (Nat.eqb p q); reflexivity. }
  clearbody S2. subst S2. set (S2 := two_eye n) in *.
  destruct Hinv as [i0 [Ei [I1 [I2 I3]]]].
  rewrite Ei. cbn [bind S2 two_eye c_rows c_cols] in I1, I2 |- *. unfold matmul, finite. cbn [cols rows e]. rewrite I1, I2, Nat.eqb_refl. cbn [bind cols rows e]. rewrite Nat.eqb_refl. cbn [bind].
  match goal with |- exists y, apply ?m b = _ /\ _ => destruct (apply_combines m b (fun p q => if Nat.eqb p q then RtoC 1 else RtoC 0)) as [y [Ey [[Cy1 [Cy2 Cy3]] Oy]]] end.
  - cbn [cols]. congruence.
  - cbn [rows cols e]. intros p q Hp Hq.
    assert (I : forall k, (k < n)%nat -> c_e i0 p k = RtoC (eye n p k / 2)).
    { intros k Hk. specialize (I3 p k Hp Hk). cbn [S2 two_eye c_cols c_e r_e] in I3.
      rewrite (csum_ext _ (fun m => if Nat.eqb m p then (RtoC 2 * c_e i0 m k)%C else RtoC 0)) in I3.
      - rewrite csum_pick in I3. pose proof Hp as Hp'. apply Nat.ltb_lt in Hp'. rewrite Hp' in I3. unfold eye.
        assert (T : c_e i0 p k = (RtoC (/ 2) * (RtoC 2 * c_e i0 p k))%C) by (rewrite Cmult_assoc, <- RtoC_mult; replace (/ 2 * 2) with 1 by lra; ring).
        rewrite T, I3. destruct (Nat.eqb p k); rewrite <- RtoC_mult; f_equal; lra.
      - intros m Hm. rewrite (Nat.eqb_sym m p). destruct (Nat.eqb p m); rewrite <- RtoC_plus; [replace (1 + 1) with 2 by lra; reflexivity|].
        replace (0 + 0) with 0 by lra. ring. }
    erewrite esum_finite.
    + instantiate (1 := fun k => (RtoC (eye n p k) * RtoC (eye n k q))%C).
      f_equal. rewrite (csum_ext _ (fun k => if Nat.eqb k p then RtoC (eye n k q) else RtoC 0)).
      * rewrite csum_pick. pose proof Hp as Hp'. apply Nat.ltb_lt in Hp'. rewrite Hp'. unfold eye. destruct (Nat.eqb p q); reflexivity.
      * intros k _. unfold eye. rewrite (Nat.eqb_sym k p). destruct (Nat.eqb p k); ring.
    + intros k Hk.
      rewrite (esum_finite _ (fun m => if Nat.eqb m p then (RtoC 2 * c_e i0 p k)%C else RtoC 0)).
      * rewrite csum_pick. pose proof Hp as Hp'. apply Nat.ltb_lt in Hp'. rewrite Hp'. rewrite I by exact Hk. cbn [r_e].
        replace (power_half (eye n k q)) with (Some (RtoC (eye n k q))).
        -- cbn [times]. f_equal. rewrite <- RtoC_mult. replace (2 * (eye n p k / 2)) with (eye n p k) by lra. reflexivity.
        -- unfold eye. destruct (Nat.eqb k q); rewrite power_half_nn by lra; rewrite ?sqrt_1, ?sqrt_0; reflexivity.
      * intros m Hm. unfold Re_, eye. cbn [c_e RtoC fst Nat.eqb]. rewrite (Nat.eqb_sym m p). destruct (Nat.eqb_spec p m) as [<-|N].
        -- rewrite power_half_nn by (cbn; lra). cbn [times fst]. f_equal. rewrite sqrt_1, <- RtoC_mult. replace (2 * 1 * 1) with 2 by lra. reflexivity.
        -- rewrite power_half_nn by (cbn; lra). cbn [times fst]. f_equal. rewrite sqrt_0, <- RtoC_mult. rewrite Rmult_0_r. ring.
  - exists y. split; [exact Ey|]. cbn [rows] in *. split; [exact Cy1|]. split; [exact Cy2|]. split; [exact Oy|].
    intros p j Hp Hj. rewrite Cy3 by assumption. f_equal.
    rewrite (csum_ext _ (fun k => if Nat.eqb k p then x b k j else RtoC 0)) by (intros k _; rewrite (Nat.eqb_sym k p); destruct (Nat.eqb p k); ring).
    rewrite csum_pick, Hb. apply Nat.ltb_lt in Hp. rewrite Hp. reflexivity.
Qed.
Print Assumptions C79_default_reception.
Example C79_default_reception_met : forall n, 
  finds_inverse (fun m => Ok (CMat (c_rows m) (c_cols m) (fun p q => if Nat.eqb p q then (/ c_e m p q)%C else RtoC 0))) (two_eye n).
Proof.
  intro n. eexists. split; [reflexivity|]. split; [reflexivity|]. split; [reflexivity|]. intros p q Hp Hq. cbn [two_eye c_rows c_cols c_e] in *.
  rewrite (csum_ext _ (fun k => if Nat.eqb k p then (if Nat.eqb p q then RtoC 1 else RtoC 0) else RtoC 0)).
  - rewrite csum_pick. apply Nat.ltb_lt in Hp. rewrite Hp. reflexivity.
  - intros k Hk. rewrite (Nat.eqb_sym k p). destruct (Nat.eqb_spec p k) as [<-|N].
    + destruct (Nat.eqb p q); [|apply Cmult_0_r]. apply Cinv_r. rewrite <- RtoC_plus. intro E. injection E as E. lra.
    + rewrite <- RtoC_plus, Rplus_0_r. apply Cmult_0_l.
Qed.

(** Receiving: only the first entry of the receive impedance matters, and it scales all streams. *)
Theorem C79_receive_impedance_scales : forall inv tc rc ti m n k (z : cmat) b y,
  (0 < c_rows z)%nat -> (0 < c_cols z)%nat ->
  impedance_receive inv (Impedance tc rc ti (Some (CMat 1 1 (fun _ _ => RtoC 1))) m) n b = Ok y -> c_e z 0%nat 0%nat = RtoC k ->
  exists y', impedance_receive inv (Impedance tc rc ti (Some z) m) n b = Ok y' /\ x_streams y' = x_streams y /\ x_samples y' = x_samples y /\
    forall i j, x_at y' i j = times (Some (RtoC k)) (x_at y i j).
Proof.
  intros inv tc rc ti m n k z b y H1 H2 Hy Hk. unfold impedance_receive, receive_coupling in *. cbn [receive_impedance receive_correlation matching_impedance or_ceye c_rows c_cols c_e Nat.eqb orb] in *.
  destruct (Nat.eqb_spec (c_rows z) 0) as [E|_]; [lia|]. destruct (Nat.eqb_spec (c_cols z) 0) as [E|_]; [lia|]. cbn [orb].
  destruct (negb _) eqn:Es; [discriminate|]. destruct (inv _) as [i0|] eqn:Ei; [|discriminate]. cbn [bind] in *.
  unfold matmul in *. cbn [cols rows e finite] in *. destruct (Nat.eqb (c_cols (or_ceye n m)) (c_rows i0)) eqn:E1; [|discriminate]. cbn [bind cols rows e] in *.
  destruct (Nat.eqb (c_cols i0) (r_rows (or_eye n rc))) eqn:E2; [|discriminate]. cbn [bind] in *.
  unfold apply, matmul in *. cbn [cols rows e finite_block] in *. destruct (Nat.eqb (r_cols (or_eye n rc)) (streams b)) eqn:E3; [|discriminate]. cbn [bind cols rows e] in *.
  injection Hy as <-. eexists. split; [reflexivity|]. cbn [x_streams x_samples x_at]. split; [reflexivity|]. split; [reflexivity|].
  assert (L : forall c f g N, (forall q, f q = times (Some c) (g q)) -> esum f N = times (Some c) (esum g N)).
  { intros c f g N H. induction N as [|N IH]; cbn [esum]; [cbn [times]; f_equal; ring|]. rewrite IH, H. destruct (esum g N), (g N); cbn [times plus]; try reflexivity. f_equal. ring. }
  assert (A : forall c p q, times (times (Some c) p) q = times (Some c) (times p q)) by (intros c [p|] [q|]; cbn [times]; try reflexivity; f_equal; ring).
  intros i j. apply L. intro q. rewrite <- A. f_equal. apply L. intro q'. rewrite <- A. f_equal. apply L. intro q2. rewrite <- A. f_equal.
  destruct (power_half _) as [p|]; cbn [times]; [|reflexivity]. f_equal. rewrite Hk. unfold Re_. cbn [RtoC fst]. rewrite Cmult_assoc, <- RtoC_mult. f_equal. f_equal. lra.
Qed.
Print Assumptions C79_receive_impedance_scales.
Example C79_receive_impedance_met : exists y, impedance_receive (fun m => Ok m) (Impedance None None None (Some (CMat 1 1 (fun _ _ => RtoC 1))) None) 2 (ex_block 2) = Ok y.
Proof. eexists. reflexivity. Qed.
