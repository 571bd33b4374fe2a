(** C101: calibrations and the physical devices they are attached to. *)
From Coq Require Import List Arith Lia Bool.
From Verif Require Import Base BaseLemmas Cal_Model Cal_Spec Cal_Proofs.
Import ListNotations.

(** Whatever is attached, replaced or detached, the mutually calling setters return, nesting at most five calls deep. *)
Theorem C101_setters_return : forall f w o, reachable (5 + f) w -> writable w o = true -> exists w', step (5 + f) w o = Ok w'.
Proof. intros f w o R W. destruct (reachable_ok f w R) as [B O]. destruct (step_ok f w o B O W) as (w' & E & _). eauto. Qed.
Print Assumptions C101_setters_return.

(** Every device shows three existing calibrations of the right classes, and each of them names that device. *)
Theorem C101_shown_calibrations_know_their_device : forall f w d k, reachable (5 + f) w -> device_exists w d ->
  calibration_exists w (slot w d k) /\ kind_of w (slot w d k) = k /\ device_of w (slot w d k) = Some d.
Proof. intros f w d k R H. destruct (reachable_ok f w R) as [[BS BD] O]. split; [apply BS; exact H|]. apply O; [exact I|exact H]. Qed.
Print Assumptions C101_shown_calibrations_know_their_device.

(** No calibration corrects two devices. *)
Theorem C101_no_calibration_is_shared : forall f w d d' k k', reachable (5 + f) w -> device_exists w d -> device_exists w d' -> slot w d k = slot w d' k' -> d = d' /\ k = k'.
Proof.
  intros f w d d' k k' R H H' E. destruct (C101_shown_calibrations_know_their_device f w d k R H) as (_ & K & D). destruct (C101_shown_calibrations_know_their_device f w d' k' R H') as (_ & K' & D').
  rewrite E in *. split; congruence.
Qed.
Print Assumptions C101_no_calibration_is_shared.

(** Assigning a calibration to a device moves it there; only its previous device is given a new default. *)
Theorem C101_assigning_moves : forall f w d k c, reachable (5 + f) w -> writable w (Assign d k c) = true -> slot w d k <> c ->
  exists w', step (5 + f) w (Assign d k c) = Ok w' /\ moved w w' c (Some d).
Proof.
  intros f w d k c R W N. destruct (reachable_ok f w R) as [B O]. cbn [writable] in W. apply andb_prop in W as [W1 W2]. apply Nat.ltb_lt in W1. destruct (option_ok_some w k (Some c) c W2 eq_refl) as [Hc K].
  destruct (set_slot_moves f w d k c B Hc W1 K) as (w' & E & M & _). eauto.
Qed.
Print Assumptions C101_assigning_moves.

(** Setting the device of a calibration that names another device, or none, has the same effect. *)
Theorem C101_attaching_moves : forall f w c v, reachable (5 + f) w -> writable w (Attach c v) = true -> device_of w c <> v ->
  exists w', step (5 + f) w (Attach c v) = Ok w' /\ moved w w' c v.
Proof.
  intros f w c v R W N. destruct (reachable_ok f w R) as [B O]. cbn [writable] in W. apply andb_prop in W as [W1 W2]. apply Nat.ltb_lt in W1.
  destruct (set_device_moves (1 + f) w c v B W1) as (w' & E & M & _); [intros d' ->; apply Nat.ltb_lt; exact W2|exact N|]. eauto.
Qed.
Print Assumptions C101_attaching_moves.

(** Repeating an assignment changes nothing. *)
Theorem C101_repeated_assignments : forall f w d k c w', reachable (5 + f) w -> writable w (Assign d k c) = true -> step (5 + f) w (Assign d k c) = Ok w' ->
  step (5 + f) w' (Assign d k c) = Ok w' /\ step (5 + f) w' (Attach c (Some d)) = Ok w'.
Proof.
  intros f w d k c w' R W E. assert (G : slot w' d k = c /\ device_of w' c = Some d).
  { destruct (Nat.eq_dec (slot w d k) c) as [Q|Q].
    - cbn [step Nat.add set_slot] in E. rewrite Q, Nat.eqb_refl in E. injection E as <-. split; [exact Q|]. subst c. cbn [writable] in W. apply andb_prop in W as [W1 _]. apply Nat.ltb_lt in W1.
      apply (C101_shown_calibrations_know_their_device f); assumption.
    - destruct (C101_assigning_moves f w d k c R W Q) as (w'' & E' & M). rewrite E in E'. injection E' as <-. destruct M as (M1 & _ & _ & M4 & _). split; [|exact M1].
      cbn [writable] in W. apply andb_prop in W as [_ W2]. destruct (option_ok_some w k (Some c) c W2 eq_refl) as [_ <-]. apply M4. reflexivity. }
  destruct G as [G1 G2]. split; cbn [step Nat.add set_slot set_device].
  - rewrite G1, Nat.eqb_refl. reflexivity.
  - rewrite G2. destruct (same_spec (Some d) (Some d)); [reflexivity|congruence].
Qed.
Print Assumptions C101_repeated_assignments.

(** Refuted: that a calibration names a device only if that device shows it. A replaced calibration keeps naming the device; setting its device to that device again does nothing, *)
Theorem C101_replaced_calibrations_refuted : forall f w d k c, reachable (5 + f) w -> writable w (Assign d k c) = true -> slot w d k <> c ->
  exists w', step (5 + f) w (Assign d k c) = Ok w' /\ device_of w' (slot w d k) = Some d /\ slot w' d k = c /\
             step (5 + f) w' (Attach (slot w d k) (Some d)) = Ok w'.
Proof.
  intros f w d k c R W N. destruct (C101_assigning_moves f w d k c R W N) as (w' & E & M). exists w'. split; [exact E|]. destruct M as (M1 & M2 & M3 & M4 & M5 & M6 & M7).
  cbn [writable] in W. apply andb_prop in W as [W1 W2]. apply Nat.ltb_lt in W1. destruct (option_ok_some w k (Some c) c W2 eq_refl) as [_ K].
  destruct (C101_shown_calibrations_know_their_device f w d k R W1) as (X & Y & Z).
  assert (D : device_of w' (slot w d k) = Some d) by (rewrite M2; auto). split; [exact D|]. split; [rewrite <- K; apply M4; reflexivity|].
  cbn [step Nat.add set_device]. rewrite D. destruct (same_spec (Some d) (Some d)); [reflexivity|congruence].
Qed.
Print Assumptions C101_replaced_calibrations_refuted.

(** and detaching it, or moving it to another device, makes the device lose the calibration that replaced it, although that one still names the device. *)
Theorem C101_lost_calibrations_refuted : forall f w d k c v w', reachable (5 + f) w -> writable w (Assign d k c) = true -> slot w d k <> c -> v <> Some d ->
  step (5 + f) w (Assign d k c) = Ok w' -> writable w' (Attach (slot w d k) v) = true ->
  exists w'', step (5 + f) w' (Attach (slot w d k) v) = Ok w'' /\ slot w' d k = c /\ slot w'' d k <> c /\ device_of w'' c = Some d.
Proof.
  intros f w d k c v w' R W N V E W'. assert (R' : reachable (5 + f) w') by (econstructor; eassumption).
  destruct (C101_replaced_calibrations_refuted f w d k c R W N) as (w1 & E1 & D & S1 & _). rewrite E in E1. injection E1 as <-.
  destruct (C101_attaching_moves f w' (slot w d k) v R' W') as (w'' & E2 & M); [congruence|]. exists w''. split; [exact E2|]. split; [exact S1|].
  destruct M as (M1 & M2 & M3 & M4 & M5 & M6 & M7). pose proof W as W0. cbn [writable] in W0. apply andb_prop in W0 as [W1 W2]. apply Nat.ltb_lt in W1.
  assert (DE : device_exists w' d).
  { destruct (C101_assigning_moves f w d k c R W N) as (w3 & E3 & M3'). rewrite E in E3. injection E3 as <-. destruct M3' as (_ & _ & _ & _ & _ & _ & Q). unfold device_exists. rewrite Q. exact W1. }
  destruct (C101_shown_calibrations_know_their_device f w' d k R' DE) as (X & Y & Z). rewrite S1 in X, Y, Z.
  assert (K : kind_of w' (slot w d k) = k).
  { destruct (C101_assigning_moves f w d k c R W N) as (w3 & E3 & M3'). rewrite E in E3. injection E3 as <-. destruct M3' as (_ & _ & Q & _).
    destruct (C101_shown_calibrations_know_their_device f w d k R W1) as (X0 & Y0 & _). rewrite Q; assumption. }
  split.
  - destruct (M5 d D V) as (Q & _). rewrite K in Q. intro F. apply Q. rewrite F. exact X.
  - rewrite M2; auto.
Qed.
Print Assumptions C101_lost_calibrations_refuted.

(** A device, two leakage calibrations (numbers 6 and 7; the device created six defaults), the first attached, then replaced by the second *)
Definition example_ops : list op := [NewDevice None None None; NewCalibration Leakage None; NewCalibration Leakage None; Attach 6 (Some 0)].
Fixpoint run (f : nat) (w : world) (ops : list op) : option world :=
  match ops with
  | [] => Some w
  | o :: t => if writable w o then match step f w o with Ok w' => run f w' t | Raise _ => None end else None
  end.
Lemma run_reachable : forall f ops w w', reachable f w -> run f w ops = Some w' -> reachable f w'.
Proof.
  intros f ops. induction ops as [|o t IH]; intros w w' R E; cbn [run] in E; [injection E as <-; exact R|].
  destruct (writable w o) eqn:W; [|discriminate]. destruct (step f w o) as [w1|] eqn:S1; [|discriminate]. apply (IH w1 w'); [econstructor; eassumption|exact E].
Qed.
Example C101_met : exists w w' w'', reachable 5 w /\ slot w 0 Leakage = 6 /\ writable w (Assign 0 Leakage 7) = true /\
  step 5 w (Assign 0 Leakage 7) = Ok w' /\ slot w' 0 Leakage = 7 /\ writable w' (Attach 6 None) = true /\
  step 5 w' (Attach 6 None) = Ok w'' /\ slot w'' 0 Leakage = 8.
Proof.
  assert (T : match run 5 empty_world example_ops with
    | Some w => (slot w 0 Leakage =? 6) && writable w (Assign 0 Leakage 7) &&
        match step 5 w (Assign 0 Leakage 7) with
        | Ok w' => (slot w' 0 Leakage =? 7) && writable w' (Attach 6 None) && match step 5 w' (Attach 6 None) with Ok w'' => slot w'' 0 Leakage =? 8 | Raise _ => false end
        | Raise _ => false
        end
    | None => false
    end = true) by (vm_compute; reflexivity).
  destruct (run 5 empty_world example_ops) as [w|] eqn:R; [|discriminate]. apply andb_prop in T as [T T2]. apply andb_prop in T as [T0 T1].
  destruct (step 5 w (Assign 0 Leakage 7)) as [w'|] eqn:E1; [|discriminate]. apply andb_prop in T2 as [T2 T4]. apply andb_prop in T2 as [T2 T3].
  destruct (step 5 w' (Attach 6 None)) as [w''|] eqn:E2; [|discriminate]. apply Nat.eqb_eq in T0, T2, T4.
  exists w, w', w''. split; [apply (run_reachable 5 example_ops empty_world); [constructor|exact R]|]. auto 10.
Qed.
