(** Properties of matched filter radars (C91). *)
From Coq Require Import List Reals Bool Arith ZArith Lia Lra Psatz.
From Coquelicot Require Import Complex.
From Verif Require Import Base BaseLemmas Cplx Cplx_Proofs Radar_Model Mf_Model Mf_Spec Mf_Proofs.
From Verif Require Sc_Proofs.
Import ListNotations.
Local Open Scope nat_scope.

Lemma resolution_pos : forall rate, (0 < rate)%R -> (0 < range_resolution rate)%R.
Proof. intros rate H. unfold range_resolution, speed_of_light. apply Rdiv_lt_0_compat; lra. Qed.
Lemma round_trip_resolution : forall rate x, (0 < rate)%R -> round_trip_samples rate x = (x / range_resolution rate)%R.
Proof. intros rate x H. unfold round_trip_samples, range_resolution, speed_of_light. field. lra. Qed.

(** If a line of beamformed samples is the echo of the transmitted stream from an object at some distance moving with one of the considered velocities,
    then the cell of its distance and velocity holds the squared correlation and no other cell of this line holds more. *)
Theorem C91_strongest_cell_of_an_echo : forall o tx rate carrier phase streams angles lines c vs a line g delay v d distance,
  (0 < rate)%R -> (0 <= min_range o)%R -> 1 <= length tx ->
  receive o (Some [tx]) rate carrier phase streams = Ok c ->
  receive_beamform o (map (fit (length tx + num_propagated o rate)) streams) = Ok (angles, lines) -> length lines = length angles ->
  nth_error lines a = Some line -> echo tx g delay (two_way_doppler carrier v) rate line ->
  round_trip_samples rate distance = INR delay -> (2 * min_range o <= distance)%R -> (distance + range_resolution rate <= max_range o)%R ->
  velocity_bins c = Ok vs -> nth_error vs d = Some v ->
  exists k, nth_error (range_bins c) k = Some distance /\ data c a d k = (Cmod g ^ 2 * energy tx ^ 2 / INR (length tx))%R /\
    forall d' k', (data c a d' k' <= data c a d k)%R.
Proof.
  intros o tx rate carrier phase streams angles lines c vs a line g delay v d distance Hr Hm Ht Hc Hb Hl Ha He Hd H1 H2 Hv Hvd.
  destruct (receive_inv _ _ _ _ _ _ _ Hc) as (tx' & angles' & x & E & B & C0 & CL & CA & C2 & C3 & C4 & C5 & C6 & C7 & C8). injection E as <-. cbn [nth] in B, C8.
  assert (Q : (angles', x) = (angles, lines)) by congruence. injection Q as -> ->. clear B.
  assert (R0 := resolution_pos rate Hr). rewrite round_trip_resolution in Hd by exact Hr.
  assert (Dd : distance = (INR delay * range_resolution rate)%R) by (rewrite <- Hd; field; lra).
  set (first := ceil_of (2 * min_range o / range_resolution rate)) in *.
  assert (F : first <= delay). { apply ceil_of_le; [apply Rmult_le_pos; [lra|apply Rlt_le, Rinv_0_lt_compat; exact R0]|]. rewrite <- Hd. apply Rmult_le_compat_r; [apply Rlt_le, Rinv_0_lt_compat; exact R0|exact H1]. }
  assert (N : delay + 1 <= num_propagated o rate).
  { apply int_of_ge. rewrite plus_INR, <- Hd. cbn [INR]. apply Rmult_le_reg_r with (range_resolution rate); [exact R0|]. unfold Rdiv at 2. rewrite Rmult_assoc, Rinv_l, Rmult_1_r by lra. replace ((distance / range_resolution rate + 1) * range_resolution rate)%R with (distance + range_resolution rate)%R by (field; lra). exact H2. }
  assert (A : a < length angles) by (rewrite <- Hl; apply nth_error_Some; congruence).
  assert (NL : nth a lines [] = line) by (apply nth_error_nth; exact Ha). rewrite <- NL in He.
  assert (TX : transmitted phase angles [tx] = [tx]) by reflexivity. rewrite TX in C8.
  unfold velocity_bins in Hv. rewrite C3 in Hv. destruct (Rleb carrier 0) eqn:L0; [discriminate|]. assert (P : (0 < carrier)%R). { unfold Rleb in L0. destruct (Rle_dec carrier 0); [discriminate|lra]. }
  injection Hv as <-. rewrite nth_error_map' in Hvd. destruct (nth_error (doppler_bins c) d) as [dop|] eqn:Ed; [|discriminate]. cbn in Hvd. injection Hvd as Hvd.
  assert (Dop : nth d (doppler_axis o carrier) 0%R = dop) by (apply nth_error_nth; rewrite <- C2; exact Ed).
  assert (Sh : two_way_doppler carrier v = (2 * dop)%R) by (unfold two_way_doppler; rewrite <- Hvd; unfold speed_of_light; field; lra).
  exists (delay - first). assert (V : data c a d (delay - first) = (Cmod g ^ 2 * energy tx ^ 2 / INR (length tx))%R).
  { rewrite C8. cbn [nth]. rewrite power_single by (assumption || lia). replace (first + (delay - first)) with delay by lia. rewrite Dop.
    rewrite (correlation_hit lines tx g delay _ rate dop a He Sh), Cmod_mult, Cmod_R, Rabs_pos_eq by apply energy_nonneg. field. apply not_0_INR. lia. }
  split; [|split; [exact V|]].
  - rewrite C7, nth_error_map'. rewrite nth_error_seq. destruct (Nat.ltb_spec (delay - first) (nr c)) as [G|G]; [|rewrite C6 in G; lia]. cbn [option_map]. f_equal. rewrite Dd. replace (first + (0 + (delay - first))) with delay by lia. reflexivity.
  - intros d' k'. rewrite V, C8. cbn [nth]. rewrite power_single by (assumption || lia).
    assert (Q := correlation_bound lines tx g delay _ rate (nth d' (doppler_axis o carrier) 0%R) a (first + k') He).
    assert (I : (0 < INR (length tx))%R) by (apply lt_0_INR; lia). apply Rmult_le_compat_r; [apply Rlt_le, Rinv_0_lt_compat; exact I|]. rewrite <- Rpow_mult_distr. exact Q.
Qed.
Print Assumptions C91_strongest_cell_of_an_echo.

(** A radar with single transmit and receive antennas finds the echo of its own transmission. *)
Theorem C91_single_antenna : forall o tx rate carrier phase r g delay v i distance,
  (0 < rate)%R -> (0 < carrier)%R -> (0 <= min_range o)%R -> 1 <= length tx -> beamformer o = None ->
  echo tx g delay (two_way_doppler carrier v) rate r ->
  round_trip_samples rate distance = INR delay -> (2 * min_range o <= distance)%R -> (distance + range_resolution rate <= max_range o)%R ->
  nth_error (linspace (- max_velocity o) (max_velocity o) (int_of (2 * max_velocity o / velocity_resolution o) + 1)) i = Some v ->
  exists c vs k, receive o (Some [tx]) rate carrier phase [r] = Ok c /\ velocity_bins c = Ok vs /\ nth_error vs i = Some v /\ nth_error (range_bins c) k = Some distance /\
    data c 0 i k = (Cmod g ^ 2 * energy tx ^ 2 / INR (length tx))%R /\ forall d' k', (data c 0 d' k' <= data c 0 i k)%R.
Proof.
  intros o tx rate carrier phase r g delay v i distance Hr Hc Hm Ht Hb He Hd H1 H2 Hv.
  destruct (receive o (Some [tx]) rate carrier phase [r]) as [c|e] eqn:Rc.
  2:{ exfalso. unfold receive in Rc. cbn [nth map] in Rc. unfold receive_beamform in Rc. cbn [length Nat.ltb Nat.leb] in Rc. rewrite Hb in Rc. cbn [bind length transmitted Nat.ltb Nat.leb andb] in Rc.
      unfold make_cube in Rc. cbn [bind length] in Rc. rewrite !map_length, !seq_length, !Nat.eqb_refl in Rc. cbn [negb] in Rc. unfold Rltb in Rc. destruct (Rlt_dec carrier 0) as [L|L]; [lra|discriminate]. }
  destruct (receive_inv _ _ _ _ _ _ _ Rc) as (tx' & angles & x & E & B & C0 & CL & CA & C2 & C3 & C4 & C5 & C6 & C7 & C8).
  assert (V : velocity_bins c = Ok (linspace (- max_velocity o) (max_velocity o) (int_of (2 * max_velocity o / velocity_resolution o) + 1))).
  { unfold velocity_bins. rewrite C3. unfold Rleb. destruct (Rle_dec carrier 0); [lra|]. f_equal. rewrite C2. unfold doppler_axis. rewrite map_map. rewrite <- map_id. apply map_ext. intro u. unfold speed_of_light. field. lra. }
  assert (D : delay + length tx <= length tx + num_propagated o rate).
  { assert (R0 := resolution_pos rate Hr). rewrite round_trip_resolution in Hd by exact Hr. assert (N : delay + 1 <= num_propagated o rate); [|lia].
    apply int_of_ge. rewrite plus_INR, <- Hd. cbn [INR]. apply Rmult_le_reg_r with (range_resolution rate); [exact R0|]. unfold Rdiv at 2. rewrite Rmult_assoc, Rinv_l, Rmult_1_r by lra. replace ((distance / range_resolution rate + 1) * range_resolution rate)%R with (distance + range_resolution rate)%R by (field; lra). exact H2. }
  exists c, (linspace (- max_velocity o) (max_velocity o) (int_of (2 * max_velocity o / velocity_resolution o) + 1)).
  destruct (C91_strongest_cell_of_an_echo o tx rate carrier phase [r] [(0%R, 0%R)] [fit (length tx + num_propagated o rate) r] c (linspace (- max_velocity o) (max_velocity o) (int_of (2 * max_velocity o / velocity_resolution o) + 1)) 0 (fit (length tx + num_propagated o rate) r) g delay v i distance) as [k [K1 [K2 K3]]]; try eassumption; try reflexivity.
  - unfold receive_beamform. cbn [map length Nat.ltb Nat.leb]. rewrite Hb. reflexivity.
  - apply echo_fit; assumption.
  - exists k. repeat (split; [eassumption || reflexivity|]). exact K3.
Qed.
Print Assumptions C91_single_antenna.

(** Silence results in an empty cube. *)
Theorem C91_silence : forall o tx rate carrier phase c streams angles lines, receive o (Some [tx]) rate carrier phase streams = Ok c ->
  receive_beamform o (map (fit (length tx + num_propagated o rate)) streams) = Ok (angles, lines) -> length lines = length angles ->
  forall a, a < length angles -> (forall l, at0 (nth a lines []) l = RtoC 0) -> forall d k, data c a d k = 0%R.
Proof.
  intros o tx rate carrier phase c streams angles lines Hc Hb Hl a Ha Hz d k. destruct (receive_inv _ _ _ _ _ _ _ Hc) as (tx' & angles' & x & E & B & C0 & CL & CA & C2 & C3 & C4 & C5 & C6 & C7 & C8). injection E as <-. cbn [nth] in B, C8.
  assert (Q : (angles', x) = (angles, lines)) by congruence. injection Q as -> ->. rewrite C8. change (transmitted phase angles [tx]) with [tx]. rewrite power_single by assumption. rewrite correlate_single.
  rewrite (csum_ext _ (fun _ => RtoC 0)) by (intros i _; rewrite Hz; ring). rewrite csum_0, Cmod_0. unfold Rdiv. ring.
Qed.
Print Assumptions C91_silence.

(** The ranges of a cube are spaced by the range resolution, lie between twice the minimum range and the maximum range, and are the distances whose echoes arrive after a whole number of samples. *)
Theorem C91_range_axis : forall o s rate carrier phase streams c, (0 < rate)%R -> (0 <= min_range o)%R -> (0 < max_range o)%R -> receive o s rate carrier phase streams = Ok c ->
  length (range_bins c) = nr c /\
  (forall k x, nth_error (range_bins c) k = Some x -> (2 * min_range o <= x)%R /\ (x + range_resolution rate <= max_range o)%R /\ exists n, round_trip_samples rate x = INR n) /\
  (forall k x y, nth_error (range_bins c) k = Some x -> nth_error (range_bins c) (S k) = Some y -> y = (x + range_resolution rate)%R) /\
  (forall n x, round_trip_samples rate x = INR n -> (2 * min_range o <= x)%R -> (x + range_resolution rate <= max_range o)%R -> In x (range_bins c)).
Proof.
  intros o s rate carrier phase streams c Hr Hm HM Hc. destruct (receive_inv _ _ _ _ _ _ _ Hc) as (tx & angles & x0 & E & B & C0 & CL & CA & C2 & C3 & C4 & C5 & C6 & C7 & C8). clear E B.
  assert (R0 := resolution_pos rate Hr). set (first := ceil_of (2 * min_range o / range_resolution rate)) in *.
  assert (Hq : (0 <= 2 * min_range o / range_resolution rate)%R) by (apply Rmult_le_pos; [lra|apply Rlt_le, Rinv_0_lt_compat; exact R0]).
  assert (G : forall k x, nth_error (range_bins c) k = Some x -> k < nr c /\ x = (INR (first + k) * range_resolution rate)%R).
  { intros k x H. rewrite C7, nth_error_map', nth_error_seq in H. destruct (Nat.ltb_spec k (nr c)); [|discriminate]. cbn [option_map] in H. injection H as <-. split; [assumption|reflexivity]. }
  split; [rewrite C7, map_length, seq_length; reflexivity|]. split; [|split].
  - intros k x H. destruct (G k x H) as [K ->]. split; [|split].
    + destruct (ceil_of_spec _ Hq) as [A _]. fold first in A. apply Rmult_le_reg_r with (/ range_resolution rate)%R; [apply Rinv_0_lt_compat; exact R0|]. replace (INR (first + k) * range_resolution rate * / range_resolution rate)%R with (INR (first + k)) by (field; lra). rewrite plus_INR. assert (P := pos_INR k). unfold Rdiv in A. lra.
    + assert (Hx : (0 <= max_range o / range_resolution rate)%R) by (apply Rlt_le, Rdiv_lt_0_compat; assumption). destruct (int_of_spec _ Hx) as [A _]. fold (num_propagated o rate) in A.
      assert (B : (INR (first + k) + 1 <= INR (num_propagated o rate))%R). { rewrite <- S_INR. apply le_INR. lia. }
      apply Rmult_le_reg_r with (/ range_resolution rate)%R; [apply Rinv_0_lt_compat; exact R0|]. replace ((INR (first + k) * range_resolution rate + range_resolution rate) * / range_resolution rate)%R with (INR (first + k) + 1)%R by (field; lra). unfold Rdiv in A. lra.
    + exists (first + k). rewrite round_trip_resolution by exact Hr. field. lra.
  - intros k x y X Y. destruct (G _ _ X) as [_ ->]. destruct (G _ _ Y) as [_ ->]. rewrite Nat.add_succ_r, S_INR. ring.
  - intros n x X H1 H2. rewrite round_trip_resolution in X by exact Hr. rewrite C7. apply in_map_iff. exists (n - first).
    assert (F : first <= n). { apply ceil_of_le; [exact Hq|]. rewrite <- X. apply Rmult_le_compat_r; [apply Rlt_le, Rinv_0_lt_compat; exact R0|exact H1]. }
    assert (N : n + 1 <= num_propagated o rate).
    { apply int_of_ge. rewrite plus_INR, <- X. cbn [INR]. apply Rmult_le_reg_r with (range_resolution rate); [exact R0|]. unfold Rdiv at 2. rewrite Rmult_assoc, Rinv_l, Rmult_1_r by lra. replace ((x / range_resolution rate + 1) * range_resolution rate)%R with (x + range_resolution rate)%R by (field; lra). exact H2. }
    split; [replace (first + (n - first)) with n by lia; rewrite <- X; field; lra|apply in_seq; lia].
Qed.
Print Assumptions C91_range_axis.

(** The velocities of a cube range from the negative to the positive maximum in equal steps of at least the configured resolution,
    if twice the maximum velocity is at least the resolution. *)
Theorem C91_velocity_axis : forall o s rate carrier phase streams c, (0 < carrier)%R -> (0 < velocity_resolution o)%R -> (velocity_resolution o <= 2 * max_velocity o)%R -> receive o s rate carrier phase streams = Ok c ->
  exists vs step, velocity_bins c = Ok vs /\ (velocity_resolution o <= step < 2 * velocity_resolution o)%R /\ 2 <= length vs /\
  nth_error vs 0 = Some (- max_velocity o)%R /\ nth_error vs (length vs - 1) = Some (max_velocity o) /\ (forall i v w, nth_error vs i = Some v -> nth_error vs (S i) = Some w -> w = (v + step)%R).
Proof.
  intros o s rate carrier phase streams c Hc Hv H2 Rc. destruct (receive_inv _ _ _ _ _ _ _ Rc) as (tx' & angles & x & E & B & C0 & CL & CA & C2 & C3 & C4 & C5 & C6 & C7 & C8). clear E B.
  set (n := int_of (2 * max_velocity o / velocity_resolution o)). assert (Q : (1 <= 2 * max_velocity o / velocity_resolution o)%R).
  { apply Rmult_le_reg_r with (velocity_resolution o); [exact Hv|]. unfold Rdiv. rewrite Rmult_assoc, Rinv_l, Rmult_1_r by lra. lra. }
  destruct (int_of_spec (2 * max_velocity o / velocity_resolution o) ltac:(lra)) as [I1 I2]. fold n in I1, I2. assert (N : 1 <= n) by (apply int_of_ge; cbn [INR]; lra). assert (NR : (1 <= INR n)%R) by (change 1%R with (INR 1); apply le_INR; exact N).
  assert (V : velocity_bins c = Ok (linspace (- max_velocity o) (max_velocity o) (n + 1))).
  { unfold velocity_bins. rewrite C3. unfold Rleb. destruct (Rle_dec carrier 0); [lra|]. f_equal. rewrite C2. unfold doppler_axis. rewrite map_map. rewrite <- map_id. apply map_ext. intro u. unfold speed_of_light. field. lra. }
  assert (E : forall i, i < n + 1 -> nth_error (linspace (- max_velocity o) (max_velocity o) (n + 1)) i = Some (- max_velocity o + INR i * (2 * max_velocity o / INR n))%R).
  { intros i Hi. unfold linspace. rewrite nth_error_map', nth_error_seq. destruct (Nat.ltb_spec i (n + 1)); [|lia]. cbn [option_map]. destruct (Nat.eqb_spec (n + 1) 1); [lia|]. replace (n + 1 - 1) with n by lia. f_equal. cbn [Nat.add]. f_equal. f_equal. f_equal. lra. }
  exists (linspace (- max_velocity o) (max_velocity o) (n + 1)), (2 * max_velocity o / INR n)%R. rewrite length_linspace.
  split; [exact V|]. split; [split|].
  - apply Rmult_le_reg_r with (INR n); [lra|]. unfold Rdiv. rewrite Rmult_assoc, Rinv_l, Rmult_1_r by lra. apply Rmult_le_compat_r with (r := velocity_resolution o) in I1; [|lra]. unfold Rdiv in I1. rewrite Rmult_assoc, Rinv_l in I1 by lra. lra.
  - apply Rmult_lt_reg_r with (INR n); [lra|]. unfold Rdiv. rewrite Rmult_assoc, Rinv_l, Rmult_1_r by lra. apply Rmult_lt_compat_r with (r := velocity_resolution o) in I2; [|lra]. unfold Rdiv in I2. rewrite Rmult_assoc, Rinv_l in I2 by lra. nra.
  - split; [lia|]. split; [rewrite E by lia; f_equal; cbn [INR]; ring|]. split; [rewrite E by lia; replace (n + 1 - 1) with n by lia; f_equal; field; lra|].
    intros i v w A B. assert (L : S i < n + 1) by (rewrite <- (length_linspace (- max_velocity o) (max_velocity o) (n + 1)); apply nth_error_Some; congruence). rewrite E in A, B by lia. assert (A' : v = (- max_velocity o + INR i * (2 * max_velocity o / INR n))%R) by congruence. assert (B' : w = (- max_velocity o + INR (S i) * (2 * max_velocity o / INR n))%R) by congruence. rewrite A', B', S_INR. ring.
Qed.
Print Assumptions C91_velocity_axis.

(** Reception uses the latest transmission, and is refused before the first one. *)
Theorem C91_latest_transmission : forall o history tx rate carrier phase streams,
  receive o (transmit_all (history ++ [tx]) None) rate carrier phase streams = receive o (Some tx) rate carrier phase streams /\
  receive o (transmit_all [] None) rate carrier phase streams = Raise RuntimeError.
Proof. intros. split; [|reflexivity]. unfold transmit_all. rewrite fold_left_app. reflexivity. Qed.
Print Assumptions C91_latest_transmission.

(** With several transmit antennas, all directions of a cube hold the same values. *)
Theorem C91_several_transmit_antennas : forall o tx rate carrier phase streams angles lines c, 2 <= length tx -> 2 <= length angles ->
  receive o (Some tx) rate carrier phase streams = Ok c -> receive_beamform o (map (fit (length (nth 0 tx []) + num_propagated o rate)) streams) = Ok (angles, lines) -> length lines = length angles ->
  forall a b d k, data c a d k = data c b d k.
Proof.
  intros o tx rate carrier phase streams angles lines c Ht Ha Hc Hb Hl a b d k. destruct (receive_inv _ _ _ _ _ _ _ Hc) as (tx' & angles' & x & E & B & C0 & CL & CA & C2 & C3 & C4 & C5 & C6 & C7 & C8). injection E as <-.
  assert (Q : (angles', x) = (angles, lines)) by congruence. injection Q as -> ->. rewrite !C8. unfold power.
  assert (Y : length (transmitted phase angles tx) = length angles). { unfold transmitted. destruct (Nat.ltb_spec 1 (length tx)); [|lia]. apply map_length. }
  rewrite Y, Hl. replace (length angles - length angles + 1) with 1 by lia. destruct (Nat.eqb_spec 1 (length angles)); [lia|]. reflexivity.
Qed.
Print Assumptions C91_several_transmit_antennas.

(** ** A concrete radar: samples are one metre apart *)
Definition rate1 : R := (speed_of_light / 2)%R.
Lemma resolution1 : range_resolution rate1 = 1%R.
Proof. unfold range_resolution, rate1, speed_of_light. field. Qed.
Lemma rate1_pos : (0 < rate1)%R.
Proof. unfold rate1, speed_of_light. lra. Qed.
Lemma cmod_one : Cmod (RtoC 1) = 1%R.
Proof. rewrite Cmod_R. apply Rabs_R1. Qed.
Lemma int_of_nat : forall n, int_of (INR n) = n.
Proof. intro n. apply int_of_unique. lra. Qed.

(** Echoes from between the minimum range and twice the minimum range are dropped. *)
Theorem C91_minimum_range_refuted : exists o tx carrier phase r c distance, make_radar 1 4 0 1 None = Ok o /\ echo tx (RtoC 1) 1 (two_way_doppler carrier 0) rate1 r /\
  round_trip_samples rate1 distance = INR 1 /\ (min_range o <= distance < max_range o)%R /\
  receive o (Some [tx]) rate1 carrier phase [r] = Ok c /\ ~ In distance (range_bins c) /\ forall d k, k < nr c -> data c 0 d k = 0%R.
Proof.
  set (o := mkRadar 1 4 0 1 None). set (tx := [RtoC 1]). set (r := [RtoC 0; RtoC 1]).
  assert (N : num_propagated o rate1 = 4). { unfold num_propagated. rewrite resolution1. cbn [max_range o]. replace (4 / 1)%R with (INR 4) by (cbn [INR]; field). apply int_of_nat. }
  assert (F : ceil_of (2 * min_range o / range_resolution rate1) = 2). { rewrite resolution1. cbn [min_range o]. replace (2 * 1 / 1)%R with (INR 2) by (cbn [INR]; field). apply ceil_of_nat. }
  assert (Rr : forall l, at0 r l = if 1 <=? l then (RtoC 1 * at0 tx (l - 1) * cis (2 * PI * two_way_doppler 1 0 * (INR (l - 1) / rate1)))%C else RtoC 0).
  { intros [|[|l]]; cbn [Nat.leb]; [reflexivity| |].
    - unfold two_way_doppler. replace (2 * PI * (2 * 0 / speed_of_light * 1) * (INR (1 - 1) / rate1))%R with 0%R by (unfold Rdiv; ring). rewrite cis_0. cbn. ring.
    - rewrite (at0_out r) by (cbn; lia). rewrite (at0_out tx) by (cbn; lia). ring. }
  destruct (receive o (Some [tx]) rate1 1 (fun _ => []) [r]) as [c|e] eqn:Rc.
  2:{ exfalso. unfold receive in Rc. cbn [nth map receive_beamform length Nat.ltb Nat.leb beamformer o bind transmitted andb] in Rc. unfold make_cube in Rc. cbn [bind length] in Rc. rewrite !map_length, !seq_length, !Nat.eqb_refl in Rc. cbn [negb] in Rc. unfold Rltb in Rc. destruct (Rlt_dec 1 0); [lra|discriminate]. }
  exists o, tx, 1%R, (fun _ => []), r, c, 1%R. destruct (receive_inv _ _ _ _ _ _ _ Rc) as (tx' & angles & x & E & B & C0 & CL & CA & C2 & C3 & C4 & C5 & C6 & C7 & C8). injection E as <-. rewrite F in C7, C8. rewrite N, F in C6. cbn [Nat.sub] in C6.
  split; [unfold make_radar, Rltb, Rleb; destruct (Rlt_dec 1 0); [lra|]; destruct (Rle_dec 4 0); [lra|]; destruct (Rlt_dec 0 0); [lra|]; destruct (Rle_dec 1 0); [lra|reflexivity]|].
  split; [exact Rr|]. split; [unfold round_trip_samples, rate1, speed_of_light; cbn [INR]; field|]. split; [cbn [min_range max_range o]; lra|]. split; [exact Rc|]. split.
  - rewrite C7, resolution1, C6. cbn [seq map Nat.add INR]. intros [H|[H|[]]]; lra.
  - intros d k K. rewrite C8. cbn [map nth] in B. unfold receive_beamform in B. cbn [length Nat.ltb Nat.leb beamformer o] in B. injection B as <- <-. change (transmitted (fun _ => []) [(0%R, 0%R)] [tx]) with [tx].
    rewrite power_single by (cbn; lia). rewrite correlate_single. cbn [nth length tx csum]. rewrite at0_fit, N.
    assert (Z : at0 r (2 + k + 0) = RtoC 0) by (apply at0_out; cbn; lia). destruct (_ <? _); rewrite ?Z.
    + match goal with |- (Cmod ?q ^ 2 / _)%R = _ => replace q with (RtoC 0) by ring end. rewrite Cmod_0. unfold Rdiv. ring.
    + match goal with |- (Cmod ?q ^ 2 / _)%R = _ => replace q with (RtoC 0) by ring end. rewrite Cmod_0. unfold Rdiv. ring.
Qed.
Print Assumptions C91_minimum_range_refuted.

(** With a resolution coarser than the considered span of velocities, only the largest negative velocity remains, so that objects at rest are missed. *)
Theorem C91_velocity_axis_refuted : exists o c tx r rate carrier phase, make_radar 0 4 (4 / 10) 1 None = Ok o /\ receive o (Some [tx]) rate carrier phase [r] = Ok c /\ velocity_bins c = Ok [(- (4 / 10))%R].
Proof.
  set (o := mkRadar 0 4 (4 / 10) 1 None). destruct (receive o (Some [[RtoC 1]]) rate1 1 (fun _ => []) [[RtoC 1]]) as [c|e] eqn:Rc.
  2:{ exfalso. unfold receive in Rc. cbn [nth map receive_beamform length Nat.ltb Nat.leb beamformer o bind transmitted andb] in Rc. unfold make_cube in Rc. cbn [bind length] in Rc. rewrite !map_length, !seq_length, !Nat.eqb_refl in Rc. cbn [negb] in Rc. unfold Rltb in Rc. destruct (Rlt_dec 1 0); [lra|discriminate]. }
  exists o, c, [RtoC 1], [RtoC 1], rate1, 1%R, (fun _ => []). split; [unfold make_radar, Rltb, Rleb; destruct (Rlt_dec 0 0); [lra|]; destruct (Rle_dec 4 0); [lra|]; destruct (Rlt_dec (4 / 10) 0); [lra|]; destruct (Rle_dec 1 0); [lra|reflexivity]|].
  split; [exact Rc|]. destruct (receive_inv _ _ _ _ _ _ _ Rc) as (tx' & angles & x & E & B & C0 & CL & CA & C2 & C3 & C4 & C5 & C6 & C7 & C8). unfold velocity_bins. rewrite C3, C2. unfold Rleb. destruct (Rle_dec 1 0); [lra|]. f_equal. unfold doppler_axis. cbn [max_velocity velocity_resolution o].
  replace (int_of (2 * (4 / 10) / 1)) with 0 by (symmetry; apply int_of_unique; cbn [INR]; lra). unfold linspace. cbn [Nat.add seq map Nat.eqb]. unfold speed_of_light. f_equal. field.
Qed.
Print Assumptions C91_velocity_axis_refuted.

(** With two transmit antennas, a direction from which nothing was received shows the power received from another direction. *)
Theorem C91_several_transmit_antennas_refuted : exists o tx rate carrier phase streams angles lines c, receive o (Some tx) rate carrier phase streams = Ok c /\
  receive_beamform o (map (fit (length (nth 0 tx []) + num_propagated o rate)) streams) = Ok (angles, lines) /\ length lines = length angles /\ 1 < length angles /\
  (forall l, at0 (nth 1 lines []) l = RtoC 0) /\ 0 < nr c /\ data c 1 0 0 = 1%R.
Proof.
  set (two := [(0%R, 0%R); (1%R, 0%R)]). set (probe := fun s : list (list C) => [nth 0 s []; [RtoC 0]]). set (o := mkRadar 0 1 0 1 (Some (two, probe))). set (tx := [[RtoC 1]; [RtoC 0]]). set (phase := fun _ : R * R => [RtoC 1; RtoC 1]).
  assert (N : num_propagated o rate1 = 1). { unfold num_propagated. rewrite resolution1. cbn [max_range o]. replace (1 / 1)%R with (INR 1) by (cbn [INR]; field). apply int_of_nat. }
  assert (F : ceil_of (2 * min_range o / range_resolution rate1) = 0). { rewrite resolution1. cbn [min_range o]. replace (2 * 0 / 1)%R with (INR 0) by (cbn [INR]; field). apply ceil_of_nat. }
  destruct (receive o (Some tx) rate1 1 phase tx) as [c|e] eqn:Rc.
  2:{ exfalso. unfold receive in Rc. cbn [nth map receive_beamform length Nat.ltb Nat.leb beamformer o bind andb tx probe transmitted two] in Rc. unfold make_cube in Rc. cbn [bind length] in Rc. rewrite !map_length, !seq_length, !Nat.eqb_refl in Rc. cbn [negb] in Rc. unfold Rltb in Rc. destruct (Rlt_dec 1 0); [lra|discriminate]. }
  destruct (receive_inv _ _ _ _ _ _ _ Rc) as (tx' & angles & x & E & B & C0 & CL & CA & C2 & C3 & C4 & C5 & C6 & C7 & C8). injection E as <-. rewrite F in C7, C8. rewrite N, F in C6. cbn [Nat.sub] in C6.
  exists o, tx, rate1, 1%R, phase, tx, angles, x, c. split; [exact Rc|]. split; [exact B|].
  unfold receive_beamform in B. cbn [map length Nat.ltb Nat.leb beamformer o tx nth] in B. injection B as <- <-. split; [reflexivity|]. split; [cbn; lia|].
  split; [intros [|[|l]]; reflexivity|]. split; [lia|].
  rewrite C8. subst two probe tx. unfold power. cbn [length transmitted Nat.ltb Nat.leb map Nat.sub Nat.add Nat.eqb nth]. unfold correlate, transmitted. cbn [length csum nth Nat.add Nat.ltb Nat.leb map seq]. unfold towards. cbn [length nth seq map csum].
  cbv beta. clear - N. rewrite !at0_fit, N. cbn [Nat.ltb Nat.leb Nat.add]. unfold phase, shifted, at0. cbn [nth].
  replace (4 * PI * nth 0 (doppler_axis o 1) 0 * INR 0 / rate1)%R with 0%R by (unfold Rdiv; cbn [INR]; ring). rewrite cis_0, !conj_R.
  match goal with |- (Cmod ?q ^ 2 / _)%R = _ => assert (Q : q = RtoC 1) end.
  { rewrite !conj_mult, !conj_plus, !conj_mult, !conj_R. apply injective_projections; cbn; ring. }
  rewrite Q, cmod_one. cbn [INR]. field.
Qed.
Print Assumptions C91_several_transmit_antennas_refuted.

(** ** Hypotheses are met: an echo from a distance of two metres, moving with ten metres per second *)
Definition pulse : list C := [RtoC 1; (0, 1)%R; RtoC (-1)].
Definition met_radar : radar := mkRadar (1 / 2) 6 10 5 None.
Definition met_echo (g : C) (delay : nat) (shift rate : R) : list C :=
  map (fun l => if delay <=? l then (g * at0 pulse (l - delay) * cis (2 * PI * shift * (INR (l - delay) / rate)))%C else RtoC 0) (seq 0 (delay + 3)).
Lemma met_echo_spec : forall g delay shift rate, echo pulse g delay shift rate (met_echo g delay shift rate).
Proof.
  intros g delay shift rate l. destruct (Nat.lt_ge_cases l (delay + 3)) as [L|L].
  - unfold met_echo. rewrite Sc_Proofs.at0_map_seq. destruct (Nat.ltb_spec l (delay + 3)); [reflexivity|lia].
  - rewrite at0_out by (unfold met_echo; rewrite map_length, seq_length; exact L). destruct (Nat.leb_spec delay l); [|lia]. rewrite (at0_out pulse) by (cbn; lia). ring.
Qed.
Example C91_single_antenna_met : exists c vs k, receive met_radar (Some [pulse]) rate1 1 (fun _ => []) [met_echo (RtoC 2) 2 (two_way_doppler 1 10) rate1] = Ok c /\ velocity_bins c = Ok vs /\ nth_error vs 4 = Some 10%R /\
  nth_error (range_bins c) k = Some 2%R /\ data c 0 4 k = 12%R /\ forall d' k', (data c 0 d' k' <= data c 0 4 k)%R.
Proof.
  destruct (C91_single_antenna met_radar pulse rate1 1 (fun _ => []) (met_echo (RtoC 2) 2 (two_way_doppler 1 10) rate1) (RtoC 2) 2 10 4 2) as [c [vs [k [H1 [H2 [H3 [H4 [H5 H6]]]]]]]].
  - apply rate1_pos.
  - lra.
  - cbn; lra.
  - cbn; lia.
  - reflexivity.
  - apply met_echo_spec.
  - unfold round_trip_samples, rate1, speed_of_light. cbn [INR]. field.
  - cbn; lra.
  - rewrite resolution1. cbn; lra.
  - cbn [max_velocity velocity_resolution met_radar]. replace (int_of (2 * 10 / 5)) with 4 by (symmetry; apply int_of_unique; cbn [INR]; lra). unfold linspace. cbn [Nat.add seq map nth_error Nat.eqb Nat.sub INR]. f_equal. field.
  - exists c, vs, k. repeat (split; [assumption|]). split; [|exact H6]. rewrite H5. unfold energy. cbn [length pulse rsum]. unfold at0, pulse. cbn [nth].
    assert (I : Cmod (0, 1)%R = 1%R). { unfold Cmod. cbn [fst snd]. replace (0 ^ 2 + 1 ^ 2)%R with 1%R by ring. apply sqrt_1. }
    rewrite I, !Cmod_R, Rabs_R1, (Rabs_left (-1)), (Rabs_pos_eq 2) by lra. cbn [INR]. field.
Qed.
