(** Properties of radars processing frames of orthogonal frequency division multiplexing (C93). *)
From Coq Require Import List Reals Bool Arith ZArith Lia Lra Psatz.
From Coquelicot Require Import Complex.
From Verif Require Import Base BaseLemmas Cplx Cplx_Proofs Radar_Model Ofr_Model Ofr_Spec Ofr_Proofs.
From Verif Require Import Grid_Spec Ofdm_Model.
From Verif Require Mf_Model Mf_Proofs Fmcw_Model Ofdm_Proofs Ofdm_Props.
Import ListNotations.
Local Open Scope nat_scope.

Lemma first_zero : forall b, (0 < b)%R -> Mf_Model.ceil_of (0 / range_resolution b) = 0.
Proof. intros b H. replace (0 / range_resolution b)%R with (INR 0). { apply Mf_Proofs.ceil_of_nat. } cbn [INR]. unfold Rdiv. ring. Qed.
Lemma receive_zero : forall demod w n x b T f angles lines c, (0 < b)%R -> receive demod w n 0 (Some x) b T f angles lines = Ok c ->
  exists data0, mapM (fun line => do e <- estimate demod w n x line; assign w n 0 e) lines = Ok data0 /\ data c = (fun a d k => nth a data0 (fun _ _ => 0%R) d k) /\
    Radar_Model.doppler_bins c = doppler_bins w T /\ Radar_Model.range_bins c = range_bins n b /\ nr c = n /\ nd c = w.
Proof.
  intros demod w n x b T f angles lines c Hb H. unfold receive in H. rewrite first_zero in H by exact Hb. destruct (mapM _ lines) as [d0|]; [|discriminate]. cbn [bind] in H. exists d0. split; [reflexivity|].
  unfold make_cube in H. cbn [bind] in H. repeat match type of H with (if ?t then _ else _) = _ => destruct t; try discriminate end. injection H as <-. cbn. rewrite Nat.sub_0_r. repeat split; reflexivity.
Qed.

(** The strongest cell of an echo lies at the distance of the reflecting object, and at the Doppler row of its frequency shift, whose label differs from half the
    frequency shift by a constant. Unused subcarriers and words only reduce the gain. *)
Theorem C93_strongest_cell : forall demod w n x y b T f angles lines c a line g d z u,
  (0 < b)%R -> (0 < T)%R -> d < n -> u < w -> Z.of_nat u = (Z.of_nat (w - w / 2) + z)%Z ->
  receive demod w n 0 (Some x) b T f angles lines = Ok c ->
  nth_error lines a = Some line -> demod line = Ok y -> echo_symbols w n g d z x y ->
  nth_error (Radar_Model.range_bins c) d = Some (distance (INR d / b)) /\
  nth_error (Radar_Model.doppler_bins c) u = Some (IZR z / T / 2 + (INR (w + w mod 2) - 1) / (4 * T))%R /\
  data c a u d = (Cmod g * INR (used x) / INR n)%R /\ forall u' k', (data c a u' k' <= data c a u d)%R.
Proof.
  intros demod w n x y b T f angles lines c a line g d z u Hb HT Hd Hu Hz H Ha Hy He. destruct (receive_zero _ _ _ _ _ _ _ _ _ _ Hb H) as (d0 & M & D & DB & RB & _).
  assert (E : nth_error d0 a = Some (fun u k => Cmod (profile w n (normalized y x) (0 + u) k))).
  { destruct (mapM_nth _ _ _ M a line Ha) as (e & E1 & E2). rewrite E2. f_equal. unfold estimate in E1. rewrite Hy in E1. cbn [bind] in E1. destruct He as (R1 & R2 & _). rewrite (rectangular_shape _ _ _ R1), (rectangular_shape _ _ _ R2) in E1. cbn [andb bind] in E1. rewrite assign_zero in E1. congruence. }
  assert (V : forall u k, data c a u k = Cmod (profile w n (normalized y x) u k)). { intros u' k'. rewrite D. rewrite (nth_error_nth _ _ _ E). reflexivity. }
  split; [|split; [|split]].
  - rewrite RB. unfold range_bins. rewrite nth_error_map', nth_error_seq. destruct (Nat.ltb_spec d n); [|lia]. cbn [option_map Nat.add]. f_equal. unfold range_resolution, distance, speed_of_light. field. lra.
  - rewrite DB. unfold doppler_bins. rewrite nth_error_map', nth_error_seq. destruct (Nat.ltb_spec u w); [|lia]. cbn [option_map Nat.add]. f_equal.
    assert (Q : (2 * INR u = INR (w + w mod 2) + 2 * IZR z)%R). { rewrite !INR_IZR_INZ, <- !mult_IZR, <- plus_IZR. f_equal. assert (Q := Nat.div_mod w 2 ltac:(lia)). assert (Q2 : w / 2 <= w) by (apply Nat.div_le_upper_bound; lia). rewrite Hz. lia. }
    unfold relative_doppler_resolution, max_relative_doppler. replace (INR u) with ((INR (w + w mod 2) + 2 * IZR z) / 2)%R by lra. field. lra.
  - rewrite V. apply (profile_hit w n g d z); [lia|lia|exact He|]. apply row_of_shift; [lia|exact Hz].
  - intros u' k'. rewrite !V. rewrite (profile_hit w n g d z x y u) by (lia || exact He || (apply row_of_shift; [lia|exact Hz])). apply profile_bound with (d := d) (z := z); [lia|exact He].
Qed.
Print Assumptions C93_strongest_cell.

(** No Doppler cell is ever labelled zero, so static objects appear to move. *)
Theorem C93_static_objects_refuted : forall demod w n rmin x b T f angles lines c u v, (0 < T)%R ->
  receive demod w n rmin (Some x) b T f angles lines = Ok c -> nth_error (Radar_Model.doppler_bins c) u = Some v -> v <> 0%R.
Proof.
  intros demod w n rmin x b T f angles lines c u v HT H Hv. unfold receive in H. destruct (mapM _ lines); [|discriminate]. cbn [bind] in H. unfold make_cube in H. cbn [bind] in H.
  repeat match type of H with (if ?t then _ else _) = _ => destruct t; try discriminate end. injection H as <-. cbn [Radar_Model.doppler_bins] in Hv. unfold doppler_bins in Hv. rewrite nth_error_map', nth_error_seq in Hv.
  destruct (u <? w); [|discriminate]. cbn [option_map Nat.add] in Hv. injection Hv as <-. unfold relative_doppler_resolution, max_relative_doppler. intro Q.
  assert (E : (2 * INR u = 1)%R). { apply Rmult_eq_reg_r with (/ (4 * T))%R; [|apply Rinv_neq_0_compat; lra]. replace (2 * INR u * / (4 * T))%R with (INR u * (1 / (2 * T)))%R by (field; lra). replace (1 * / (4 * T))%R with (1 / (4 * T))%R by (field; lra). lra. }
  rewrite INR_IZR_INZ, <- mult_IZR in E. apply eq_IZR in E. lia.
Qed.
Print Assumptions C93_static_objects_refuted.

(** A minimum range makes every reception fail. *)
Theorem C93_minimum_range_refuted : forall demod w n rmin last b T f angles line lines c, (0 < b)%R -> (0 < rmin)%R -> 2 <= n ->
  receive demod w n rmin last b T f angles (line :: lines) <> Ok c.
Proof.
  intros demod w n rmin last b T f angles line lines c Hb Hr Hn H. unfold receive in H. destruct last as [x|]; [|discriminate].
  assert (R0 : (0 < range_resolution b)%R) by (unfold range_resolution, speed_of_light; apply Rdiv_lt_0_compat; lra).
  assert (F : 1 <= Mf_Model.ceil_of (rmin / range_resolution b)).
  { assert (P : (0 < rmin / range_resolution b)%R) by (apply Rdiv_lt_0_compat; lra). destruct (Mf_Proofs.ceil_of_spec (rmin / range_resolution b) ltac:(lra)) as [A _]. assert (Q : (INR 0 < INR (Mf_Model.ceil_of (rmin / range_resolution b)))%R) by (cbn [INR]; lra). apply INR_lt in Q. exact Q. }
  set (k := Mf_Model.ceil_of (rmin / range_resolution b)) in *. cbn [mapM] in H. destruct (estimate demod w n x line) as [e|]; [|discriminate]. cbn [bind] in H.
  assert (A : assign w n k e = Raise ValueError). { unfold assign. destruct (Nat.eqb_spec n (n - k)); [lia|]. destruct (Nat.eqb_spec n 1); [lia|]. rewrite andb_false_r. reflexivity. }
  rewrite A in H. discriminate.
Qed.
Print Assumptions C93_minimum_range_refuted.

(** Nothing can be received before something was transmitted. *)
Theorem C93_transmit_first : forall demod w n rmin b T f angles lines, receive demod w n rmin None b T f angles lines = Raise RuntimeError.
Proof. reflexivity. Qed.
Print Assumptions C93_transmit_first.

(** ** Echoes of transmitted words *)
Lemma backward_scaled : forall n os a y, ofdm_backward_word false n os (map (Cmult a) y) = map (Cmult a) (ofdm_backward_word false n os y).
Proof.
  intros n os a y. unfold ofdm_backward_word. assert (F : fft Backward (map (Cmult a) y) = map (Cmult a) (fft Backward y)).
  { unfold fft, tab. rewrite map_length, map_map. apply map_ext. intro k. unfold fft_at. rewrite (csum_ext _ (fun i => a * (at0 y i * cis (- turn (length y) k i)))%C).
    - rewrite csum_scal. ring.
    - intros i _. rewrite Fmcw_Proofs.at0_map_mult. ring. }
  rewrite F. unfold fftshift, roll_right, slice. rewrite !map_length, !skipn_map, !firstn_map, <- map_app, !skipn_map, !firstn_map, !map_map. apply map_ext. intro c. ring.
Qed.
(** If every received word is a transmitted word delayed within its cyclic prefix, scaled and turned in phase, then the demodulated grid is that of an echo. *)
Theorem C93_delayed_words_are_echoes : forall n os d g z (x words : grid), 0 < n -> 0 < os -> d <= n -> Forall (fun r => length r = n) x -> length words = length x ->
  (forall r, r < length x -> nth r words [] = map (Cmult (g * cis (2 * PI * IZR z * INR r / INR (length x)))%C) (rotate (d * os) (ofdm_forward_word false n os (nth r x [])))) ->
  exists g', Cmod g' = Cmod g /\ echo_symbols (length x) n g' d z x (ofdm_backward false n os words).
Proof.
  intros n os d g z x words Hn Ho Hd Hx Hl H. assert (N : (0 < INR n)%R) by (apply lt_0_INR; exact Hn). assert (O : (0 < INR os)%R) by (apply lt_0_INR; exact Ho).
  set (h := (- (2 * PI * ((INR (pad_start n os) - INR (n * os / 2)) / INR (n * os)) * INR (d * os)))%R). exists (g * cis h)%C.
  assert (NE : forall r, r < length x -> nth r (ofdm_backward false n os words) [] = map (Cmult (g * cis (2 * PI * IZR z * INR r / INR (length x)))%C) (ofdm_backward_word false n os (rotate (d * os) (ofdm_forward_word false n os (nth r x []))))).
  { intros r Hr. unfold ofdm_backward. rewrite (nth_indep _ [] (ofdm_backward_word false n os [])) by (rewrite map_length; lia). rewrite map_nth, H by exact Hr. apply backward_scaled. }
  assert (LR : forall r, r < length x -> length (rotate (d * os) (ofdm_forward_word false n os (nth r x []))) = os * n).
  { intros r Hr. rewrite Forall_forall in Hx. assert (L : length (nth r x []) = n) by (apply Hx; apply nth_In; exact Hr). unfold rotate. rewrite app_length, skipn_length, firstn_length, (Ofdm_Proofs.length_forward false n os) by assumption. lia. }
  split; [rewrite Cmod_mult, Mf_Proofs.cmod_cis; ring|]. split; [split; [reflexivity|exact Hx]|split].
  - split; [unfold ofdm_backward; rewrite map_length; exact Hl|]. apply Forall_forall. intros row Hrow. destruct (In_nth _ _ [] Hrow) as (r & Hr & E). unfold ofdm_backward in Hr. rewrite map_length, Hl in Hr.
    rewrite <- E, NE by exact Hr. rewrite map_length. apply Ofdm_Proofs.length_backward; [exact Hn|exact Ho|]. apply LR. exact Hr.
  - intros r c Hr Hc. unfold Ofr_Model.entry. rewrite (NE r Hr). rewrite Fmcw_Proofs.at0_map_mult. unfold at0 at 1. rewrite Ofdm_Props.C19_offset_rotates_phases; [|exact Hn|exact Ho|rewrite Forall_forall in Hx; apply Hx; apply nth_In; exact Hr|nia|exact Hc].
    unfold at0. set (v := nth c (nth r x []) (RtoC 0)).
    assert (B : Ofdm_Proofs.bin false n os c = pad_start n os + c) by reflexivity. rewrite B.
    assert (P : cis (- (2 * PI * ((INR (pad_start n os + c) - INR (n * os / 2)) / INR (n * os)) * INR (d * os))) = (cis h * cis (- turn n d c))%C).
    { rewrite <- cis_add. f_equal. unfold h, turn. rewrite plus_INR, !mult_INR. field. lra. }
    rewrite P. ring.
Qed.
Print Assumptions C93_delayed_words_are_echoes.

(** ** The hypotheses can be met *)
Definition two_words : grid := [[RtoC 1; RtoC 1]; [RtoC 1; RtoC 0]].
Definition their_echo : grid := [[RtoC 3; (RtoC 3 * cis (- turn 2 1 1))%C]; [(RtoC 3 * cis (2 * PI * IZR 0 * INR 1 / INR 2))%C; RtoC 0]].
Lemma echo_met : echo_symbols 2 2 (RtoC 3) 1 0 two_words their_echo.
Proof.
  split; [split; [reflexivity|repeat constructor]|]. split; [split; [reflexivity|repeat constructor]|].
  intros r c Hr Hc. assert (Z0 : forall r, cis (2 * PI * 0 * INR r / INR 2) = RtoC 1). { intro k. replace (2 * PI * 0 * INR k / INR 2)%R with 0%R by (cbn [INR]; field). apply cis_0. }
  assert (T0 : cis (- turn 2 1 0) = RtoC 1). { unfold turn. replace (- (2 * PI * INR 1 * INR 0 / INR 2))%R with 0%R by (cbn [INR]; field). apply cis_0. }
  rewrite Z0. destruct r as [|[|r]]; [| |lia]; (destruct c as [|[|c]]; [| |lia]); cbn [Ofr_Model.entry nth two_words their_echo at0]; unfold Ofr_Model.entry, at0; cbn [nth two_words their_echo]; rewrite ?T0, ?(Z0 1); ring.
Qed.
Example strongest_cell_met : exists c, receive (fun _ => Ok their_echo) 2 2 0 (Some two_words) 1 1 0 [(0, 0)%R] [[]] = Ok c /\ used two_words = 3 /\
  nth_error (Radar_Model.range_bins c) 1 = Some (distance 1) /\ data c 0 1 1 = (9 / 2)%R.
Proof.
  assert (U : used two_words = 3). { unfold used, two_words. cbn [concat app filter]. unfold Ceqb. destruct (Ceq_dec (RtoC 1) (RtoC 0)) as [E|_]; [exfalso; injection E as E; lra|]. destruct (Ceq_dec (RtoC 0) (RtoC 0)) as [_|E]; [reflexivity|congruence]. }
  assert (R : exists c, receive (fun _ => Ok their_echo) 2 2 0 (Some two_words) 1 1 0 [(0, 0)%R] [[]] = Ok c).
  { unfold receive. rewrite first_zero by lra. cbn [mapM]. unfold estimate. cbn [bind]. rewrite (rectangular_shape 2 2 their_echo), (rectangular_shape 2 2 two_words) by (apply echo_met). cbn [andb bind]. rewrite assign_zero. cbn [bind]. unfold make_cube. cbn. unfold Rltb. destruct (Rlt_dec 0 0); [lra|]. eexists. reflexivity. }
  destruct R as [c Hc]. exists c. split; [exact Hc|split; [exact U|]].
  destruct (C93_strongest_cell (fun _ => Ok their_echo) 2 2 two_words their_echo 1 1 0 [(0, 0)%R] [[]] c 0 [] (RtoC 3) 1 0 1) as (A & _ & B & _); try lra; try lia; try reflexivity; try exact Hc; try apply echo_met.
  split; [rewrite A; f_equal; cbn [INR]; f_equal; lra|]. rewrite B, U, Cmod_R, Rabs_pos_eq by lra. cbn [INR]. lra.
Qed.
