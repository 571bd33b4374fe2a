(** Properties of static operators, slots and triggers *)
From Coq Require Import List Reals Bool Arith ZArith Lia Lra.
From Coquelicot Require Import Complex.
From Verif Require Import Base BaseLemmas Opr_Model Opr_Spec Opr_Proofs.
Import ListNotations.
Local Open Scope nat_scope.

(** After any history of additions and removals a slot holds exactly the operators added and not removed since, each once *)
Theorem C128_slots : forall history, NoDup (slot history) /\ forall o, In o (slot history) <-> registered history o.
Proof. intro history. split; [apply slot_NoDup|intro o; apply slot_registered]. Qed.
Print Assumptions C128_slots.
Example C128_slots_met : slot [Add 3; Add 1; Add 3; Remove 2; Remove 3; Add 4; Add 3] = [1; 4; 3].
Proof. reflexivity. Qed.
(** Further operators come last, and removals keep the order of the others *)
Theorem C128_slot_order : forall history o, (~ registered history o -> slot (history ++ [Add o]) = slot history ++ [o]) /\ (registered history o -> slot (history ++ [Add o]) = slot history) /\
  slot (history ++ [Remove o]) = filter (fun a => negb (a =? o)) (slot history).
Proof.
  intros history o. rewrite !slot_snoc. cbn [slot_step]. rewrite <- slot_registered. repeat split.
  - intro H. destruct (add_cases (slot history) o) as [[A _]|[_ E]]; [contradiction|exact E].
  - intro H. destruct (add_cases (slot history) o) as [[_ E]|[A _]]; [exact E|contradiction].
  - apply remove_filter. apply slot_NoDup.
Qed.
Print Assumptions C128_slot_order.
(** Devices hold the operators they are constructed with, in the order of their first mention *)
Theorem C128_constructor : forall l, constructed l = slot (map Add l) /\ forall o p, In o l -> In p l -> In o (constructed l) /\ (index o (constructed l) < index p (constructed l) <-> index o l < index p l).
Proof.
  intro l. split.
  - unfold constructed, slot. generalize (@nil nat). induction l as [|a l IH]; intro s; [reflexivity|]. cbn. apply IH.
  - intros o p O P. split; [apply constructed_In; exact O|apply constructed_order; assumption].
Qed.
Print Assumptions C128_constructor.
Example C128_constructor_met : constructed [2; 5; 2; 1; 5] = [2; 5; 1].
Proof. reflexivity. Qed.
(** Slots that are not supported refuse operators and stay empty *)
Theorem C128_unsupported : forall history o, unsupported history = [] /\ unsupported_add (unsupported history) o = Raise RuntimeError.
Proof. intros history o. split; [|reflexivity]. unfold unsupported. induction history as [|[p|p] l IH]; [reflexivity|exact IH|exact IH]. Qed.
Print Assumptions C128_unsupported.

(** The longest frame of a device without silent transmitters is at least as long as each frame and, unless it is zero, as long as one of them *)
Theorem C128_longest_frame : forall bw tx rx, List.Forall (fun o => ~ silent o) (tx ++ rx) -> exists v, max_frame_duration bw tx rx = Ok v /\ (0 <= v)%R /\
  (forall o, In o (tx ++ rx) -> exists d, frame_duration o bw = Ok d /\ (d <= v)%R) /\ (v = 0%R \/ exists o, In o (tx ++ rx) /\ frame_duration o bw = Ok v).
Proof. intros bw tx rx F. destruct (proj1 (longest_defined bw (tx ++ rx) 0) F) as [v V]. exists v. split; [exact V|]. exact (longest_ok bw (tx ++ rx) 0 v V). Qed.
Print Assumptions C128_longest_frame.
Example C128_longest_frame_met : exists v, max_frame_duration 2 [Sending 4 (mkSignal [] 1 0)] [Receiving 6 0] = Ok v /\ v = 3%R /\ List.Forall (fun o => ~ silent o) [Sending 4 (mkSignal [] 1 0); Receiving 6 0].
Proof.
  eexists. split; [reflexivity|]. split; [|repeat constructor; intros [n H]; discriminate]. rewrite (Rmax_right 0) by (cbn; lra). rewrite Rmax_right; cbn; lra.
Qed.
(** Refuted: devices have a longest frame, and random triggers a realization.  Any silent transmitter is an AttributeError *)
Theorem C128_silent_transmitters_refuted : forall draw d ds, Exists silent (transmitters d ++ receivers d) ->
  max_frame_duration (bandwidth d) (transmitters d) (receivers d) = Raise AttributeError /\ realize_random draw (d :: ds) = Raise AttributeError.
Proof.
  intros draw d ds S0. assert (E : max_frame_duration (bandwidth d) (transmitters d) (receivers d) = Raise AttributeError) by (apply longest_defined; exact S0). split; [exact E|]. unfold realize_random. rewrite E. reflexivity.
Qed.
Print Assumptions C128_silent_transmitters_refuted.
Example C128_silent_transmitters_refuted_met : Exists silent (transmitters (mkDevice 1 1 [Silent 10] []) ++ []).
Proof. constructor. exists 10%Z. reflexivity. Qed.
(** The samples receivers need are the largest number any of them needs *)
Theorem C128_samples_needed : forall bw os rx, (forall o, In o rx -> samples_per_frame o bw os <= min_num_samples bw os rx) /\ (min_num_samples bw os rx = 0 \/ exists o, In o rx /\ samples_per_frame o bw os = min_num_samples bw os rx).
Proof. intros bw os rx. destruct (fold_max (fun o => samples_per_frame o bw os) rx 0) as (_ & A & B). split; assumption. Qed.
Print Assumptions C128_samples_needed.
Example C128_samples_needed_met : min_num_samples 1 1 [Receiving 3 0; Receiving 7 0; Receiving 5 0] = 7.
Proof. reflexivity. Qed.

(** Silence: zeros on every port, of the configured number of samples, or of the duration requested, short of it by less than one sample *)
Theorem C128_silence : forall n ports r f duration, (0 < r)%R -> (0 <= n)%Z -> exists s, transmit_silence n ports r f duration = Ok s /\ length (content s) = ports /\ rate s = r /\ carrier s = f /\
  (forall row z, In row (content s) -> In z row -> z = RtoC 0) /\
  forall row, In row (content s) -> ((duration <= 0)%R -> Z.of_nat (length row) = n) /\ ((0 < duration)%R -> (INR (length row) / r <= duration < (INR (length row) + 1) / r)%R).
Proof.
  intros n ports r f duration H N. set (k := if Rle_dec duration 0 then n else truncate (duration * r)).
  assert (K : (0 <= k)%Z). { unfold k. destruct (Rle_dec duration 0); [exact N|]. apply truncate_ok. apply Rmult_le_pos; lra. }
  exists (mkSignal (repeat (repeat (RtoC 0) (Z.to_nat k)) ports) r f). split; [unfold transmit_silence; fold k; destruct (Z.ltb_spec k 0); [lia|reflexivity]|]. cbn [content rate carrier]. split; [apply repeat_length|]. split; [reflexivity|]. split; [reflexivity|]. split.
  - intros row z R Z0. apply repeat_spec in R. subst row. apply repeat_spec in Z0. exact Z0.
  - intros row R. apply repeat_spec in R. subst row. rewrite repeat_length. split.
    + intro D. rewrite Z2Nat.id by exact K. unfold k. destruct (Rle_dec duration 0); [reflexivity|contradiction].
    + intro D. unfold k in *. destruct (Rle_dec duration 0); [lra|]. destruct (truncate_ok (duration * r)) as [_ B]; [apply Rmult_le_pos; lra|]. rewrite INR_IZR_INZ, Z2Nat.id by exact K. split.
      * apply (Rmult_le_reg_r r); [exact H|]. unfold Rdiv. rewrite Rmult_assoc, Rinv_l by lra. lra.
      * apply (Rmult_lt_reg_r r); [exact H|]. unfold Rdiv. rewrite Rmult_assoc, Rinv_l by lra. lra.
Qed.
Print Assumptions C128_silence.
Example C128_silence_met : (0 < 1)%R /\ exists s, transmit_silence 3 2 1 0 0 = Ok s /\ content s = [[RtoC 0; RtoC 0; RtoC 0]; [RtoC 0; RtoC 0; RtoC 0]].
Proof. split; [lra|]. unfold transmit_silence. destruct (Rle_dec 0 0); [|lra]. eexists. split; reflexivity. Qed.
(** Refuted: a silent transmitter that could be constructed can transmit.  Negative numbers of samples are accepted *)
Theorem C128_negative_silence_refuted : forall n ports r f duration, (n < 0)%Z -> (duration <= 0)%R -> transmit_silence n ports r f duration = Raise ValueError.
Proof. intros n ports r f duration N D. unfold transmit_silence. destruct (Rle_dec duration 0); [|contradiction]. cbv zeta. destruct (Z.ltb_spec n 0); [reflexivity|lia]. Qed.
Print Assumptions C128_negative_silence_refuted.
(** Signals are transmitted sample by sample at the sampling rate of the device; their carrier frequency is kept, whatever that of the device *)
Theorem C128_signals_are_transmitted : forall s r, content (transmit_signal s r) = content s /\ rate (transmit_signal s r) = r /\ carrier (transmit_signal s r) = carrier s /\ receive s = s.
Proof. intros s r. repeat split. Qed.
Print Assumptions C128_signals_are_transmitted.
(** Their frame is as long as the transmitted signal exactly if the device does not oversample *)
Theorem C128_signal_frames : forall s r bw, (0 < r)%R -> (0 < bw)%R -> 0 < num_columns s -> exists d, frame_duration (new_sending s) bw = Ok d /\ (d = seconds (transmit_signal s r) <-> r = bw).
Proof.
  intros s r bw R B N. eexists. split; [reflexivity|]. unfold seconds, transmit_signal, num_columns. cbn [content rate]. fold (num_columns s). assert (I : (0 < INR (num_columns s))%R) by (apply lt_0_INR; exact N). split; [|intros ->; reflexivity].
  intro E. apply (f_equal (fun x => x * bw * r)%R) in E. assert (A : (INR (num_columns s) / bw * bw * r = INR (num_columns s) * r)%R) by (field; lra). assert (A' : (INR (num_columns s) / r * bw * r = INR (num_columns s) * bw)%R) by (field; lra). rewrite A, A' in E. apply Rmult_eq_reg_l in E; lra.
Qed.
Print Assumptions C128_signal_frames.
Example C128_signal_frames_met : 0 < num_columns (mkSignal [[RtoC 1; RtoC 2]] 1 0).
Proof. cbn. lia. Qed.
(** Refuted: the frame of a transmitter fits its signal.  It stays that of the first signal *)
Theorem C128_replaced_signals_refuted : forall s t bw, (0 < bw)%R -> num_columns s <> num_columns t -> exists d e, frame_duration (set_signal (new_sending s) t) bw = Ok d /\ frame_duration (new_sending t) bw = Ok e /\ frame_duration (new_sending s) bw = Ok d /\ d <> e.
Proof.
  intros s t bw B N. exists (INR (num_columns s) / bw)%R, (INR (num_columns t) / bw)%R. repeat split. intro E. apply N. apply INR_eq. apply (f_equal (fun x => x * bw)%R) in E. unfold Rdiv in E. rewrite !Rmult_assoc, Rinv_l in E by lra. lra.
Qed.
Print Assumptions C128_replaced_signals_refuted.
Example C128_replaced_signals_refuted_met : num_columns (mkSignal [[RtoC 1; RtoC 2]] 1 0) <> num_columns (mkSignal [[RtoC 1]] 1 0).
Proof. discriminate. Qed.
(** Receivers of negative power or of negative numbers of samples are refused *)
Theorem C128_receivers_are_checked : forall n power, ((exists o, new_receiving n power = Ok o) <-> (0 <= power)%R /\ (0 <= n)%Z) /\
  forall o m, new_receiving n power = Ok o -> frame_duration o 1 = Ok (IZR n / 1)%R /\ (set_samples o m = Raise ValueError <-> (m < 0)%Z) /\ ((0 <= m)%Z -> set_samples o m = new_receiving m power).
Proof.
  intros n power. unfold new_receiving. destruct (Rlt_dec power 0) as [P|P]; [|destruct (Z.ltb_spec n 0) as [N|N]].
  - split; [split; [intros [o H]; discriminate|lra]|]. intros o m H. discriminate.
  - split; [split; [intros [o H]; discriminate|lia]|]. intros o m H. discriminate.
  - split; [split; [intros _; split; [lra|lia]|intros _; eexists; reflexivity]|]. intros o m H. injection H as <-. cbn [set_samples frame_duration]. split; [rewrite INR_IZR_INZ, Z2Nat.id by exact N; reflexivity|]. destruct (Z.ltb_spec m 0) as [M|M]; split; try lia; try reflexivity; split; try discriminate; try lia; reflexivity.
Qed.
Print Assumptions C128_receivers_are_checked.
Example C128_receivers_are_checked_met : exists o, new_receiving 3 1 = Ok o.
Proof. apply C128_receivers_are_checked. split; [lra|lia]. Qed.

(** Offsets in seconds are realized short of the offset by less than a sample of the first device *)
Theorem C128_time_offsets : forall offset d ds, (0 <= offset)%R -> (0 < sampling_rate d)%R -> exists n, realize_time offset (d :: ds) = Ok (n, sampling_rate d) /\ (0 <= n)%Z /\ (IZR n / sampling_rate d <= offset < (IZR n + 1) / sampling_rate d)%R.
Proof.
  intros offset d ds O R. eexists. split; [reflexivity|]. destruct (truncate_ok (offset * sampling_rate d)) as [A B]; [apply Rmult_le_pos; lra|]. split; [exact A|]. split.
  - apply (Rmult_le_reg_r (sampling_rate d)); [exact R|]. unfold Rdiv. rewrite Rmult_assoc, Rinv_l by lra. lra.
  - apply (Rmult_lt_reg_r (sampling_rate d)); [exact R|]. unfold Rdiv. rewrite Rmult_assoc, Rinv_l by lra. lra.
Qed.
Print Assumptions C128_time_offsets.
Example C128_time_offsets_met : (0 <= 3 / 2)%R /\ (0 < sampling_rate (mkDevice 4 2 [] []))%R.
Proof. cbn. lra. Qed.
(** Models without devices: only static triggers are realized *)
Theorem C128_without_devices : forall n offset draw, realize_static [] = Ok (0%Z, 1%R) /\ realize_samples n [] = Raise RuntimeError /\ realize_time offset [] = Raise RuntimeError /\ realize_random draw [] = Raise RuntimeError.
Proof. intros. repeat split. Qed.
Print Assumptions C128_without_devices.
(** Random triggers are realized before the end of the longest frame of all devices *)
Theorem C128_random_triggers : forall draw ds t, (forall m, (0 < m)%Z -> (0 <= draw m < m)%Z) -> List.Forall (fun d => (0 < sampling_rate d)%R) ds -> realize_random draw ds = Ok t ->
  (0 <= fst t)%Z /\ (forall d, In d ds -> sampling_rate d = snd t) /\ (fst t = 0%Z \/ exists d v, In d ds /\ has_frame d v /\ (IZR (fst t) / snd t < v)%R).
Proof.
  intros draw ds t D F E. unfold realize_random in E. destruct ds as [|d ds]; [discriminate|]. inversion F as [|a b Rd Rds]; subst. destruct (max_frame_duration _ _ _) as [m|e] eqn:M; cbn [bind] in E; [|discriminate]. destruct (longest_of _ _ _) as [v|e] eqn:V; cbn [bind] in E; [|discriminate]. cbv zeta in E.
  destruct (longest_ok _ _ _ _ M) as (M1 & _ & M3). destruct (longest_of_ok _ _ _ _ V) as (V1 & V2 & V3). destruct (truncate_ok (v * sampling_rate d)) as [T1 T2]; [apply Rmult_le_pos; lra|].
  assert (Rates : forall p, In p (d :: ds) -> sampling_rate p = sampling_rate d). { intros p [<-|I]; [reflexivity|]. rewrite List.Forall_forall in V2. apply V2. exact I. }
  destruct (Z.eqb_spec (truncate (v * sampling_rate d)) 0) as [Z|Z]; injection E as <-; cbn [fst snd]; [split; [lia|]; split; [exact Rates|left; reflexivity]|].
  assert (T : (0 < truncate (v * sampling_rate d))%Z) by lia. destruct (D _ T) as [D1 D2]. split; [exact D1|]. split; [exact Rates|]. right.
  assert (Q : (IZR (draw (truncate (v * sampling_rate d))) / sampling_rate d < v)%R). { apply (Rmult_lt_reg_r (sampling_rate d)); [exact Rd|]. unfold Rdiv. rewrite Rmult_assoc, Rinv_l by lra. apply IZR_lt in D2. lra. }
  assert (P : (0 < v)%R). { apply (Rmult_lt_reg_r (sampling_rate d)); [exact Rd|]. assert (1 <= IZR (truncate (v * sampling_rate d)))%R by (apply IZR_le; lia). lra. }
  destruct V3 as [Em|(p & I & Fp)].
  - destruct M3 as [Z0|(o & I & Fo)]; [lra|]. exists d, v. split; [left; reflexivity|]. split; [exists o; split; [exact I|rewrite Em; exact Fo]|exact Q].
  - destruct (longest_ok _ _ _ _ Fp) as (_ & _ & [Z0|(o & Io & Fo)]); [lra|]. exists p, v. split; [right; exact I|]. split; [exists o; split; assumption|exact Q].
Qed.
Print Assumptions C128_random_triggers.
Example C128_random_triggers_met : exists t, realize_random (fun m => (m - 1)%Z) [mkDevice 2 2 [] [Receiving 6 0]] = Ok t /\ fst t = 5%Z.
Proof.
  unfold realize_random. cbn [transmitters receivers bandwidth sampling_rate max_frame_duration]. unfold max_frame_duration. cbn [app longest frame_duration bind longest_of]. replace (INR 6 / 2)%R with 3%R by (cbn; lra). rewrite Rmax_right by lra.
  assert (E : truncate (3 * 2) = 6%Z). { destruct (truncate_ok (3 * 2)) as [A B]; [lra|]. assert (truncate (3 * 2) < 7)%Z by (apply lt_IZR; lra). assert (5 < truncate (3 * 2))%Z by (apply lt_IZR; lra). lia. } rewrite E. eexists. split; reflexivity.
Qed.
(** Devices of different sampling rates are refused by random triggers *)
Theorem C128_random_triggers_need_one_rate : forall draw a d b, List.Forall (fun e => List.Forall (fun o => ~ silent o) (transmitters e ++ receivers e)) (a :: b) -> In d b -> sampling_rate d <> sampling_rate a -> realize_random draw (a :: b) = Raise RuntimeError.
Proof.
  intros draw a d b F I N. inversion F as [|x y Fa Fb]; subst. unfold realize_random. destruct (C128_longest_frame (bandwidth a) (transmitters a) (receivers a) Fa) as (m & -> & _). cbn [bind].
  assert (Q : forall m, longest_of (sampling_rate a) m b = Raise RuntimeError). { clear F Fa. induction b as [|e b IH]; [destruct I|]. intro m0. cbn [longest_of]. destruct (Req_EM_T (sampling_rate e) (sampling_rate a)) as [E|E]; [|reflexivity]. inversion Fb as [|x y Fe Fb']; subst. destruct (C128_longest_frame (bandwidth e) (transmitters e) (receivers e) Fe) as (w & -> & _). cbn [bind]. apply IH; [|exact Fb']. destruct I as [<-|I]; [contradiction|exact I]. }
  rewrite Q. reflexivity.
Qed.
Print Assumptions C128_random_triggers_need_one_rate.
Example C128_random_triggers_need_one_rate_met : In (mkDevice 2 1 [] []) [mkDevice 2 1 [] []] /\ sampling_rate (mkDevice 2 1 [] []) <> sampling_rate (mkDevice 1 1 [] []).
Proof. split; [left; reflexivity|cbn; lra]. Qed.
