(** Proofs for simulation campaigns. *)
From Coq Require Import String List Arith Bool Reals ZArith Lia Lra.
From Coq Require Import R_Ifp.
From Verif Require Import Base BaseLemmas Sim_Model Sim_Spec.
Import ListNotations.
Local Open Scope nat_scope.

Lemma zip_tab {A B} (f : nat -> A) (g : nat * A -> B) : forall n k, map g (zip2 (seq k n) (map f (seq k n))) = map (fun d => g (d, f d)) (seq k n).
Proof. induction n as [|n IH]; intros k; [reflexivity|]. cbn [seq map zip2 combine]. f_equal. apply IH. Qed.
Lemma zip_maps {A B} (f : nat -> A) (g : nat -> B) : forall l, zip2 (map f l) (map g l) = map (fun d => (f d, g d)) l.
Proof. induction l as [|a l IH]; [reflexivity|]. cbn [map zip2 combine]. f_equal. exact IH. Qed.
Lemma zip_length {A B} (l : list A) (m : list B) : List.length (zip2 l m) = Nat.min (List.length l) (List.length m).
Proof. apply combine_length. Qed.

Section P.
Context {W Chan State Trans Out Sig Inp Rec : Type}.
Variable p : physics W Chan State Trans Out Sig Inp Rec.
Variable draws : nat -> W.
Notation runner := (runner Chan State Trans Out Sig Inp Rec).
Notation step := (step W Chan State Trans Out Sig Inp Rec p draws).
Notation history := (history W Chan State Trans Out Sig Inp Rec p draws).
Notation sequence := (sequence W Chan State Trans Out Sig Inp Rec p draws).
Notation devices := (r_devices Chan State Trans Out Sig Inp Rec).
Notation channels := (r_channels Chan State Trans Out Sig Inp Rec).
Notation states := (r_states Chan State Trans Out Sig Inp Rec).
Notation trans := (r_trans Chan State Trans Out Sig Inp Rec).
Notation outs := (r_outs Chan State Trans Out Sig Inp Rec).
Notation prop := (r_prop Chan State Trans Out Sig Inp Rec).
Notation inputs := (r_inputs Chan State Trans Out Sig Inp Rec).
Notation recs := (r_recs Chan State Trans Out Sig Inp Rec).
Notation clock := (r_clock Chan State Trans Out Sig Inp Rec).

Lemma history_app : forall a b s, history s (a ++ b) = history (history s a) b.
Proof. induction a as [|o a IH]; intros b s; [reflexivity|]. cbn [app]. apply (IH b). Qed.

(** ** Stages of a drop *)
Section Stages.
Variables (s : runner) (t : R) (ws : nat -> W).
Let n := devices s.
Lemma do_transmit (Hs : states s = Some (map (state_of p t) (seq 0 n))) : ws 2 = draws (clock s) ->
  exists s', step s TransmitOperators = (s', None) /\ devices s' = n /\ channels s' = channels s /\ states s' = states s /\ trans s' = Some (map (transmission_of p t ws) (seq 0 n)) /\
    outs s' = outs s /\ prop s' = prop s /\ inputs s' = inputs s /\ recs s' = recs s /\ clock s' = S (clock s).
Proof.
  intros Hw. cbn [Sim_Model.step]. rewrite Hs. eexists. split; [reflexivity|]. cbn [r_devices r_channels r_states r_trans r_outs r_prop r_inputs r_recs r_clock].
  repeat (split; [try reflexivity; congruence|]). split; [|repeat split; reflexivity]. f_equal. rewrite zip_tab. cbn [fst snd]. rewrite <- Hw. reflexivity.
Qed.
Lemma do_generate (Hs : states s = Some (map (state_of p t) (seq 0 n))) (Ht : trans s = Some (map (transmission_of p t ws) (seq 0 n))) : ws 3 = draws (clock s) ->
  exists s', step s GenerateOutputs = (s', None) /\ devices s' = n /\ channels s' = channels s /\ states s' = states s /\ trans s' = trans s /\
    outs s' = Some (map (output_of p t ws) (seq 0 n)) /\ prop s' = prop s /\ inputs s' = inputs s /\ recs s' = recs s /\ clock s' = S (clock s).
Proof.
  intros Hw. cbn [Sim_Model.step]. rewrite Ht, Hs, map_length, seq_length. fold n. rewrite Nat.eqb_refl. cbn [negb]. eexists. split; [reflexivity|].
  cbn [r_devices r_channels r_states r_trans r_outs r_prop r_inputs r_recs r_clock]. split; [reflexivity|]. split; [reflexivity|]. split; [congruence|]. split; [congruence|].
  split; [|repeat split; reflexivity]. f_equal. rewrite map_map, zip_maps, zip_tab. cbn [fst snd]. rewrite <- Hw. reflexivity.
Qed.
Lemma do_propagate (Hc : channels s = Some (channels_of p ws)) (Hs : states s = Some (map (state_of p t) (seq 0 n))) (Ho : outs s = Some (map (output_of p t ws) (seq 0 n))) :
  exists s', step s Propagate = (s', None) /\ devices s' = n /\ channels s' = channels s /\ states s' = states s /\ trans s' = trans s /\
    outs s' = outs s /\ prop s' = Some (map (signal_of p n t ws) (seq 0 n)) /\ inputs s' = inputs s /\ recs s' = recs s /\ clock s' = S (clock s).
Proof.
  cbn [Sim_Model.step]. rewrite Hs, Hc, Ho, map_length, seq_length. fold n. rewrite Nat.eqb_refl. cbn [negb]. eexists. split; [reflexivity|].
  cbn [r_devices r_channels r_states r_trans r_outs r_prop r_inputs r_recs r_clock]. repeat split; congruence.
Qed.
Lemma do_process (Hs : states s = Some (map (state_of p t) (seq 0 n))) (Ho : outs s = Some (map (output_of p t ws) (seq 0 n))) (Hp : prop s = Some (map (signal_of p n t ws) (seq 0 n))) : ws 5 = draws (clock s) ->
  exists s', step s ProcessInputs = (s', None) /\ devices s' = n /\ channels s' = channels s /\ states s' = states s /\ trans s' = trans s /\
    outs s' = outs s /\ prop s' = prop s /\ inputs s' = map (input_of p n t ws) (seq 0 n) /\ recs s' = recs s /\ clock s' = S (clock s).
Proof.
  intros Hw. cbn [Sim_Model.step]. rewrite Ho, Hp, Hs, !map_length, seq_length. fold n. rewrite Nat.eqb_refl. cbn [negb]. eexists. split; [reflexivity|].
  cbn [r_devices r_channels r_states r_trans r_outs r_prop r_inputs r_recs r_clock]. split; [reflexivity|]. split; [reflexivity|]. split; [congruence|]. split; [reflexivity|].
  split; [congruence|]. split; [congruence|]. split; [|repeat split; reflexivity]. rewrite (zip_maps (output_of p t ws)), zip_maps, zip_tab. cbn [fst snd]. rewrite <- Hw. reflexivity.
Qed.
Lemma do_receive (Hs : states s = Some (map (state_of p t) (seq 0 n))) (Hi : inputs s = map (input_of p n t ws) (seq 0 n)) : ws 6 = draws (clock s) ->
  exists s', step s ReceiveOperators = (s', None) /\ devices s' = n /\ channels s' = channels s /\ states s' = states s /\ trans s' = trans s /\
    outs s' = outs s /\ prop s' = prop s /\ inputs s' = inputs s /\ recs s' = map (reception_of p n t ws) (seq 0 n) /\ clock s' = S (clock s).
Proof.
  intros Hw. cbn [Sim_Model.step]. rewrite Hi, Hs, !map_length, seq_length. fold n. rewrite Nat.eqb_refl. cbn [negb]. eexists. split; [reflexivity|].
  cbn [r_devices r_channels r_states r_trans r_outs r_prop r_inputs r_recs r_clock]. split; [reflexivity|]. split; [reflexivity|]. split; [congruence|]. split; [reflexivity|].
  split; [reflexivity|]. split; [reflexivity|]. split; [congruence|]. split; [|reflexivity]. rewrite map_map, zip_maps, zip_tab. cbn [fst snd]. rewrite <- Hw. reflexivity.
Qed.
End Stages.

(** Execution from some stage on; [stages_from] are lemmas chained backwards *)
Ltac bump := unfold signal_of, input_of, reception_of, output_of, transmission_of, channels_of, state_of.
Lemma from6 s t ws : states s = Some (map (state_of p t) (seq 0 (devices s))) -> channels s = Some (channels_of p ws) -> trans s = Some (map (transmission_of p t ws) (seq 0 (devices s))) ->
  outs s = Some (map (output_of p t ws) (seq 0 (devices s))) -> prop s = Some (map (signal_of p (devices s) t ws) (seq 0 (devices s))) -> inputs s = map (input_of p (devices s) t ws) (seq 0 (devices s)) ->
  ws 6 = draws (clock s) -> exists s', sequence s [ReceiveOperators] = Ok s' /\ devices s' = devices s /\ clock s' = clock s + 1 /\ holds p t ws s'.
Proof.
  intros Hs Hc Ht Ho Hp Hi Hw. destruct (do_receive s t ws Hs Hi Hw) as [s' [E [E1 [E2 [E3 [E4 [E5 [E6 [E7 [E8 E9]]]]]]]]]].
  exists s'. cbn [Sim_Model.sequence]. rewrite E. split; [reflexivity|]. split; [exact E1|]. split; [lia|]. unfold holds. rewrite E1. repeat split; congruence.
Qed.
Lemma from5 s t ws : states s = Some (map (state_of p t) (seq 0 (devices s))) -> channels s = Some (channels_of p ws) -> trans s = Some (map (transmission_of p t ws) (seq 0 (devices s))) ->
  outs s = Some (map (output_of p t ws) (seq 0 (devices s))) -> prop s = Some (map (signal_of p (devices s) t ws) (seq 0 (devices s))) ->
  ws 5 = draws (clock s) -> ws 6 = draws (S (clock s)) -> exists s', sequence s [ProcessInputs; ReceiveOperators] = Ok s' /\ devices s' = devices s /\ clock s' = clock s + 2 /\ holds p t ws s'.
Proof.
  intros Hs Hc Ht Ho Hp Hw Hw6. destruct (do_process s t ws Hs Ho Hp Hw) as [s1 [E [E1 [E2 [E3 [E4 [E5 [E6 [E7 [E8 E9]]]]]]]]]].
  destruct (from6 s1 t ws) as [s' [F [F1 [F2 F3]]]]; try (rewrite E1; congruence); try congruence.
  exists s'. cbn [Sim_Model.sequence] in *. rewrite E. split; [exact F|]. split; [congruence|]. split; [lia|exact F3].
Qed.
Lemma from4 s t ws : states s = Some (map (state_of p t) (seq 0 (devices s))) -> channels s = Some (channels_of p ws) -> trans s = Some (map (transmission_of p t ws) (seq 0 (devices s))) ->
  outs s = Some (map (output_of p t ws) (seq 0 (devices s))) ->
  ws 5 = draws (1 + clock s) -> ws 6 = draws (2 + clock s) -> exists s', sequence s [Propagate; ProcessInputs; ReceiveOperators] = Ok s' /\ devices s' = devices s /\ clock s' = clock s + 3 /\ holds p t ws s'.
Proof.
  intros Hs Hc Ht Ho Hw Hw6. destruct (do_propagate s t ws Hc Hs Ho) as [s1 [E [E1 [E2 [E3 [E4 [E5 [E6 [E7 [E8 E9]]]]]]]]]].
  destruct (from5 s1 t ws) as [s' [F [F1 [F2 F3]]]]; try (rewrite E1; congruence); try congruence; try (rewrite E9; assumption).
  exists s'. cbn [Sim_Model.sequence] in *. rewrite E. split; [exact F|]. split; [congruence|]. split; [lia|exact F3].
Qed.
Lemma from3 s t ws : states s = Some (map (state_of p t) (seq 0 (devices s))) -> channels s = Some (channels_of p ws) -> trans s = Some (map (transmission_of p t ws) (seq 0 (devices s))) ->
  ws 3 = draws (clock s) -> ws 5 = draws (2 + clock s) -> ws 6 = draws (3 + clock s) ->
  exists s', sequence s [GenerateOutputs; Propagate; ProcessInputs; ReceiveOperators] = Ok s' /\ devices s' = devices s /\ clock s' = clock s + 4 /\ holds p t ws s'.
Proof.
  intros Hs Hc Ht Hw3 Hw Hw6. destruct (do_generate s t ws Hs Ht Hw3) as [s1 [E [E1 [E2 [E3 [E4 [E5 [E6 [E7 [E8 E9]]]]]]]]]].
  destruct (from4 s1 t ws) as [s' [F [F1 [F2 F3]]]]; try (rewrite E1; congruence); try congruence; try (rewrite E9; assumption).
  exists s'. cbn [Sim_Model.sequence] in *. rewrite E. split; [exact F|]. split; [congruence|]. split; [lia|exact F3].
Qed.
Lemma from2 s t ws : states s = Some (map (state_of p t) (seq 0 (devices s))) -> channels s = Some (channels_of p ws) ->
  ws 2 = draws (clock s) -> ws 3 = draws (1 + clock s) -> ws 5 = draws (3 + clock s) -> ws 6 = draws (4 + clock s) ->
  exists s', sequence s [TransmitOperators; GenerateOutputs; Propagate; ProcessInputs; ReceiveOperators] = Ok s' /\ devices s' = devices s /\ clock s' = clock s + 5 /\ holds p t ws s'.
Proof.
  intros Hs Hc Hw2 Hw3 Hw Hw6. destruct (do_transmit s t ws Hs Hw2) as [s1 [E [E1 [E2 [E3 [E4 [E5 [E6 [E7 [E8 E9]]]]]]]]]].
  destruct (from3 s1 t ws) as [s' [F [F1 [F2 F3]]]]; try (rewrite E1; congruence); try congruence; try (rewrite E9; assumption).
  exists s'. cbn [Sim_Model.sequence] in *. rewrite E. split; [exact F|]. split; [congruence|]. split; [lia|exact F3].
Qed.
Lemma from1 s t ws : channels s = Some (channels_of p ws) ->
  ws 2 = draws (1 + clock s) -> ws 3 = draws (2 + clock s) -> ws 5 = draws (4 + clock s) -> ws 6 = draws (5 + clock s) ->
  exists s', sequence s [SampleStates t; TransmitOperators; GenerateOutputs; Propagate; ProcessInputs; ReceiveOperators] = Ok s' /\ devices s' = devices s /\ clock s' = clock s + 6 /\ holds p t ws s'.
Proof.
  intros Hc Hw2 Hw3 Hw Hw6. set (s1 := fst (step s (SampleStates t))).
  destruct (from2 s1 t ws) as [s' [F [F1 [F2 F3]]]]; [reflexivity|exact Hc|exact Hw2|exact Hw3|exact Hw|exact Hw6|].
  exists s'. split; [exact F|]. split; [exact F1|]. split; [rewrite F2; cbn; lia|exact F3].
Qed.
Lemma from0 s t ws : ws 0 = draws (clock s) ->
  ws 2 = draws (2 + clock s) -> ws 3 = draws (3 + clock s) -> ws 5 = draws (5 + clock s) -> ws 6 = draws (6 + clock s) ->
  exists s', sequence s (stage_executors t) = Ok s' /\ devices s' = devices s /\ clock s' = clock s + 7 /\ holds p t ws s'.
Proof.
  intros Hw0 Hw2 Hw3 Hw Hw6. set (s1 := fst (step s RealizeChannels)).
  destruct (from1 s1 t ws) as [s' [F [F1 [F2 F3]]]]; [cbn [s1 fst Sim_Model.step r_channels]; unfold channels_of; rewrite Hw0; reflexivity|exact Hw2|exact Hw3|exact Hw|exact Hw6|].
  exists s'. split; [exact F|]. split; [exact F1|]. split; [rewrite F2; cbn; lia|exact F3].
Qed.

(** ** What every history maintains *)
Definition size {A} (o : option (list A)) : nat := match o with Some l => List.length l | None => 0 end.
Definition given {A} (o : option A) : bool := match o with Some _ => true | None => false end.
Record ok (s : runner) : Prop := mkOk {
  ok_states : size (states s) <= devices s; ok_trans : size (trans s) <= devices s; ok_outs : size (outs s) <= devices s; ok_prop : size (prop s) <= devices s; ok_inputs : List.length (inputs s) <= devices s;
  ok_trans_states : given (states s) = true -> size (trans s) = devices s -> given (trans s) = true -> size (states s) = devices s;
  ok_outs_states : given (states s) = true -> size (outs s) = devices s -> given (outs s) = true -> size (states s) = devices s;
  ok_prop_given : given (prop s) = true -> given (states s) = true /\ given (channels s) = true /\ given (outs s) = true;
  ok_outs_given : given (outs s) = true -> given (trans s) = true }.
Lemma ok_new n : ok (new_runner _ _ _ _ _ _ _ n).
Proof. constructor; cbn; try lia; try discriminate. Qed.
Lemma ok_step s o : ok s -> ok (fst (step s o)).
Proof.
  intros [H1 H2 H3 H4 H5 H6 H7 H8 H9]. destruct s as [n ch st tr ou pr inp re ck]. cbn [r_devices r_channels r_states r_trans r_outs r_prop r_inputs r_recs r_clock] in *.
  destruct o; cbn [Sim_Model.step r_devices r_channels r_states r_trans r_outs r_prop r_inputs r_recs r_clock].
  - cbn [fst]. constructor; cbn in *; auto. intros K. destruct (H8 K) as [? [? ?]]. auto.
  - cbn [fst]. constructor; cbn [r_devices r_channels r_states r_trans r_outs r_prop r_inputs r_recs r_clock size given] in *; rewrite ?map_length, ?seq_length; auto. intros K. destruct (H8 K) as [? [? ?]]. auto.
  - cbn [fst]. constructor; cbn [r_devices r_channels r_states r_trans r_outs r_prop r_inputs r_recs r_clock size given] in *; rewrite ?map_length, ?zip_length, ?seq_length; auto; try lia.
    intros K. destruct st as [st|]; [|discriminate]. cbn [size] in *. intros. lia.
  - destruct tr as [tr|]; [|cbn [fst]; constructor; assumption]. destruct (Nat.eqb_spec (List.length tr) n) as [El|]; cbn [negb]; [|cbn [fst]; constructor; assumption].
    cbn [fst]. constructor; cbn [r_devices r_channels r_states r_trans r_outs r_prop r_inputs r_recs r_clock size given] in *; rewrite ?map_length, ?zip_length, ?seq_length; auto; try lia.
    intros K. destruct (H8 K) as [? [? ?]]. auto.
  - destruct st as [st|]; [|cbn [fst]; constructor; assumption]. destruct ch as [ch|]; [|cbn [fst]; constructor; assumption]. destruct ou as [ou|]; [|cbn [fst]; constructor; assumption].
    destruct (Nat.eqb_spec (List.length ou) n) as [El|]; cbn [negb]; [|cbn [fst]; constructor; assumption].
    cbn [fst]. constructor; cbn [r_devices r_channels r_states r_trans r_outs r_prop r_inputs r_recs r_clock size given] in *; rewrite ?map_length, ?zip_length, ?seq_length; auto; try lia.
  - destruct ou as [ou|]; [|cbn [fst]; constructor; assumption]. destruct (Nat.eqb_spec (List.length ou) n) as [El|]; cbn [negb]; [|cbn [fst]; constructor; assumption].
    destruct pr as [pr|]; [|cbn [fst]; constructor; assumption]. destruct (Nat.eqb_spec (List.length pr) n) as [El2|]; cbn [negb]; [|cbn [fst]; constructor; assumption].
    destruct st as [st|]; [|destruct (H8 eq_refl); discriminate].
    cbn [fst]. constructor; cbn [r_devices r_channels r_states r_trans r_outs r_prop r_inputs r_recs r_clock size given] in *; rewrite ?map_length, ?zip_length, ?seq_length; auto; try lia.
  - destruct (Nat.eqb_spec (List.length inp) n) as [El|]; cbn [negb]; [|cbn [fst]; constructor; assumption]. cbn [fst]. constructor; assumption.
  - cbn [fst]. constructor; cbn [r_devices r_channels r_states r_trans r_outs r_prop r_inputs r_recs r_clock size given] in *; auto; try lia.
Qed.
Lemma ok_history : forall ops s, ok s -> ok (history s ops).
Proof. induction ops as [|o ops IH]; intros s H; [exact H|]. cbn [Sim_Model.history]. apply IH. apply ok_step. exact H. Qed.

(** Artifacts only appear with a successful call of their stage *)
Lemma kept {A} (get : runner -> option A) (P : op -> Prop) :
  (forall s o, given (get s) = true -> given (get (fst (step s o))) = true) -> (forall s o, given (get (fst (step s o))) = true -> given (get s) = true \/ P o) ->
  forall ops s, given (get (history s ops)) = true -> given (get s) = true \/ exists o, In o ops /\ P o.
Proof.
  intros H1 H2. induction ops as [|o ops IH]; intros s H; [left; exact H|]. cbn [Sim_Model.history] in H. destruct (IH _ H) as [K|[o' [Hin HP]]]; [|right; exists o'; split; [right; exact Hin|exact HP]].
  destruct (H2 _ _ K) as [K2|K2]; [left; exact K2|]. right. exists o. split; [left; reflexivity|exact K2].
Qed.
Ltac cases s o := destruct s as [? ? ? ? ? ? ? ? ?]; destruct o; cbn [Sim_Model.step r_devices r_channels r_states r_trans r_outs r_prop r_inputs r_recs r_clock fst snd];
  repeat (match goal with |- context [match ?x with Some _ => _ | None => _ end] => destruct x | |- context [if ?x then _ else _] => destruct x end; cbn [fst snd r_devices r_channels r_states r_trans r_outs r_prop r_inputs r_recs r_clock]); cbn [given].
Lemma states_from ops n : given (states (history (new_runner _ _ _ _ _ _ _ n) ops)) = true <-> sampled ops.
Proof.
  split.
  - intros H. destruct (kept (fun s => states s) (fun o => exists t, o = SampleStates t)) with (ops := ops) (s := new_runner Chan State Trans Out Sig Inp Rec n) as [K|[o [Hin [t ->]]]]; [| |exact H|discriminate K|exists t; exact Hin].
    + intros s o. cases s o; auto.
    + intros s o. cases s o; auto. intros _. right. eexists. reflexivity.
  - intros [t Hin]. apply in_split in Hin. destruct Hin as [a [b ->]]. rewrite history_app. cbn [Sim_Model.history].
    assert (K : forall ops s, given (states s) = true -> given (states (history s ops)) = true).
    { induction ops as [|o ops IH]; intros s Hs; [exact Hs|]. cbn [Sim_Model.history]. apply IH. revert Hs. cases s o; auto. }
    apply K. reflexivity.
Qed.
Lemma channels_from ops n : given (channels (history (new_runner _ _ _ _ _ _ _ n) ops)) = true <-> In RealizeChannels ops.
Proof.
  split.
  - intros H. destruct (kept (fun s => channels s) (fun o => o = RealizeChannels)) with (ops := ops) (s := new_runner Chan State Trans Out Sig Inp Rec n) as [K|[o [Hin ->]]]; [| |exact H|discriminate K|exact Hin].
    + intros s o. cases s o; auto.
    + intros s o. cases s o; auto.
  - intros Hin. apply in_split in Hin. destruct Hin as [a [b ->]]. rewrite history_app. cbn [Sim_Model.history].
    assert (K : forall ops s, given (channels s) = true -> given (channels (history s ops)) = true).
    { induction ops as [|o ops IH]; intros s Hs; [exact Hs|]. cbn [Sim_Model.history]. apply IH. revert Hs. cases s o; auto. }
    apply K. reflexivity.
Qed.
Lemma trans_from ops n : given (trans (history (new_runner _ _ _ _ _ _ _ n) ops)) = true <-> In TransmitOperators ops.
Proof.
  split.
  - intros H. destruct (kept (fun s => trans s) (fun o => o = TransmitOperators)) with (ops := ops) (s := new_runner Chan State Trans Out Sig Inp Rec n) as [K|[o [Hin ->]]]; [| |exact H|discriminate K|exact Hin].
    + intros s o. cases s o; auto.
    + intros s o. cases s o; auto.
  - intros Hin. apply in_split in Hin. destruct Hin as [a [b ->]]. rewrite history_app. cbn [Sim_Model.history].
    assert (K : forall ops s, given (trans s) = true -> given (trans (history s ops)) = true).
    { induction ops as [|o ops IH]; intros s Hs; [exact Hs|]. cbn [Sim_Model.history]. apply IH. revert Hs. cases s o; auto. }
    apply K. reflexivity.
Qed.
Lemma outs_given ops n : given (outs (history (new_runner _ _ _ _ _ _ _ n) ops)) = true -> In GenerateOutputs ops.
Proof.
  intros H. destruct (kept (fun s => outs s) (fun o => o = GenerateOutputs)) with (ops := ops) (s := new_runner Chan State Trans Out Sig Inp Rec n) as [K|[o [Hin ->]]]; [| |exact H|discriminate K|exact Hin].
  + intros s o. cases s o; auto.
  + intros s o. cases s o; auto.
Qed.
(** The artifacts of a stage belong to the present devices if and only if a call of the stage succeeded and no device has been added since *)
Lemma devices_step s o : devices (fst (step s o)) = (match o with AddDevice => 1 | _ => 0 end) + devices s.
Proof. cases s o; reflexivity. Qed.
Lemma devices_kept : forall ops s, ~ In AddDevice ops -> devices (history s ops) = devices s.
Proof.
  induction ops as [|o ops IH]; intros s H; [reflexivity|]. cbn [Sim_Model.history]. rewrite IH by (intros K; apply H; right; exact K). rewrite devices_step.
  destruct o; try reflexivity. exfalso. apply H. left. reflexivity.
Qed.
Section Artifact.
Variables (measure : runner -> nat) (g : nat -> nat) (stage : op).
Hypothesis M0 : forall s, ok s -> measure s <= g (devices s).
Hypothesis M1 : forall s, ok s -> snd (step s stage) = None -> measure (fst (step s stage)) = g (devices s).
Hypothesis M2 : forall s o, ok s -> o = stage /\ snd (step s o) = None \/ measure (fst (step s o)) = measure s.
Hypothesis M3 : stage <> AddDevice.
Hypothesis M4 : forall n, g n < g (S n).
Notation performed := (performed p draws stage).
Lemma artifact n ops : let s := history (new_runner _ _ _ _ _ _ _ n) ops in
  measure s = g (devices s) <-> performed n ops \/ measure (new_runner _ _ _ _ _ _ _ n) = g n /\ ~ In AddDevice ops.
Proof.
  intros s. unfold s. clear s. split.
  - induction ops as [|o ops IH] using rev_ind; [intros H; right; split; [exact H|intros []]|]. rewrite history_app. cbn [Sim_Model.history]. set (s := history (new_runner _ _ _ _ _ _ _ n) ops) in *.
    assert (Hok : ok s) by (apply ok_history, ok_new). intros H. destruct (M2 s o Hok) as [[-> K]|K].
    + left. exists ops, []. split; [reflexivity|]. split; [exact K|intros []].
    + rewrite K, devices_step in H. assert (No : o <> AddDevice). { intros ->. pose proof (M0 s Hok). pose proof (M4 (devices s)). cbn in H. lia. }
      replace (match o with AddDevice => 1 | _ => 0 end) with 0 in H by (destruct o; try reflexivity; congruence). cbn [Nat.add] in H.
      destruct (IH H) as [[before [after [E1 [E2 E3]]]]|[E1 E2]].
      * left. exists before, (after ++ [o]). split; [rewrite E1, <- app_assoc; reflexivity|]. split; [exact E2|]. rewrite in_app_iff. intros [X|[X|[]]]; [contradiction|congruence].
      * right. split; [exact E1|]. rewrite in_app_iff. intros [X|[X|[]]]; [contradiction|congruence].
  - assert (K : forall after s, ok s -> measure s = g (devices s) -> ~ In AddDevice after -> measure (history s after) = g (devices (history s after))).
    { induction after as [|o after IH]; intros s Hok H Hn; [exact H|]. cbn [Sim_Model.history]. assert (No : o <> AddDevice) by (intros ->; apply Hn; left; reflexivity).
      assert (Do : devices (fst (step s o)) = devices s) by (rewrite devices_step; destruct o; try reflexivity; congruence).
      apply IH; [apply ok_step; exact Hok| |intros X; apply Hn; right; exact X]. rewrite Do. destruct (M2 s o Hok) as [[-> K]|K]; [apply M1; assumption|rewrite K; exact H]. }
    intros [[before [after [-> [E2 E3]]]]|[E1 E2]].
    + rewrite history_app. cbn [Sim_Model.history]. apply K; [apply ok_step, ok_history, ok_new| |exact E3]. rewrite M1 by (try (apply ok_history, ok_new); exact E2). f_equal. rewrite devices_step. destruct stage; try reflexivity. congruence.
    + apply K; [apply ok_new|exact E1|exact E2].
Qed.
End Artifact.
Definition count {A} (o : option (list A)) : nat := match o with Some l => S (List.length l) | None => 0 end.
Lemma count_size {A} (o : option (list A)) n : size o <= n -> count o <= S n.
Proof. destruct o; cbn; lia. Qed.
Ltac trivial_steps := repeat (match goal with |- context [match ?x with Some _ => _ | None => _ end] => destruct x | |- context [if ?x then _ else _] => destruct x end; cbn [fst snd r_devices r_channels r_states r_trans r_outs r_prop r_inputs r_recs r_clock]); try reflexivity.
Lemma outs_now n ops : let s := history (new_runner _ _ _ _ _ _ _ n) ops in count (outs s) = S (devices s) <-> performed p draws GenerateOutputs n ops.
Proof.
  intros s. pose proof (artifact (fun s => count (outs s)) S GenerateOutputs) as A. cbv beta zeta in A. eapply iff_trans; [apply A; clear A|clear A].
  - intros x Hx. apply count_size, Hx.
  - intros x [H1 H2 H3 H4 H5 H6 H7 H8 H9] E. destruct x as [m ch st tr ou pr inp re ck]. cbn [Sim_Model.step r_devices r_channels r_states r_trans r_outs r_prop r_inputs r_recs r_clock] in *.
    destruct tr as [tr|]; [|discriminate]. destruct (Nat.eqb_spec (List.length tr) m) as [El|]; cbn [negb] in *; [|discriminate].
    cbn [fst r_outs count]. rewrite map_length, !zip_length, seq_length. f_equal. destruct st as [st|]; rewrite ?map_length, ?repeat_length; [|lia]. cbn [size given] in *. specialize (H6 eq_refl El eq_refl). lia.
  - intros x o _. destruct x as [m ch st tr ou pr inp re ck]. destruct o; cbn [Sim_Model.step r_devices r_channels r_states r_trans r_outs r_prop r_inputs r_recs r_clock fst snd];
      match goal with |- GenerateOutputs = GenerateOutputs /\ _ \/ _ => idtac | _ => right; trivial_steps end.
    destruct tr as [tr|]; [|right; reflexivity]. destruct (negb (List.length tr =? m)); [right; reflexivity|]. left. split; reflexivity.
  - discriminate.
  - intros; lia.
  - split; [intros [H|[H _]]; [exact H|discriminate]|intros H; left; exact H].
Qed.
Lemma prop_now n ops : let s := history (new_runner _ _ _ _ _ _ _ n) ops in count (prop s) = S (devices s) <-> performed p draws Propagate n ops.
Proof.
  intros s. pose proof (artifact (fun s => count (prop s)) S Propagate) as A. cbv beta zeta in A. eapply iff_trans; [apply A; clear A|clear A].
  - intros x Hx. apply count_size, Hx.
  - intros x _ E. destruct x as [m ch st tr ou pr inp re ck]. cbn [Sim_Model.step r_devices r_channels r_states r_trans r_outs r_prop r_inputs r_recs r_clock] in *.
    destruct st as [st|]; [|discriminate]. destruct ch as [ch|]; [|discriminate]. destruct ou as [ou|]; [|discriminate]. destruct (negb (List.length ou =? m)); [discriminate|].
    cbn [fst r_prop count]. rewrite map_length, seq_length. reflexivity.
  - intros x o _. destruct x as [m ch st tr ou pr inp re ck]. destruct o; cbn [Sim_Model.step r_devices r_channels r_states r_trans r_outs r_prop r_inputs r_recs r_clock fst snd];
      match goal with |- Propagate = Propagate /\ _ \/ _ => idtac | _ => right; trivial_steps end.
    destruct st as [st|]; [|right; reflexivity]. destruct ch as [ch|]; [|right; reflexivity]. destruct ou as [ou|]; [|right; reflexivity]. destruct (negb (List.length ou =? m)); [right; reflexivity|]. left. split; reflexivity.
  - discriminate.
  - intros; lia.
  - split; [intros [H|[H _]]; [exact H|discriminate]|intros H; left; exact H].
Qed.
Lemma inputs_now n ops : let s := history (new_runner _ _ _ _ _ _ _ n) ops in List.length (inputs s) = devices s <-> performed p draws ProcessInputs n ops \/ n = 0 /\ ~ In AddDevice ops.
Proof.
  intros s. pose proof (artifact (fun s => List.length (inputs s)) (fun n => n) ProcessInputs) as A. cbv beta zeta in A. eapply iff_trans; [apply A; clear A|clear A].
  - intros x Hx. apply Hx.
  - intros x [H1 H2 H3 H4 H5 H6 H7 H8 H9] E. destruct x as [m ch st tr ou pr inp re ck]. cbn [Sim_Model.step r_devices r_channels r_states r_trans r_outs r_prop r_inputs r_recs r_clock] in *.
    destruct ou as [ou|]; [|discriminate]. destruct (Nat.eqb_spec (List.length ou) m) as [El|]; cbn [negb] in *; [|discriminate].
    destruct pr as [pr|]; [|discriminate]. destruct (Nat.eqb_spec (List.length pr) m) as [El2|]; cbn [negb] in *; [|discriminate]. destruct st as [st|]; [|discriminate].
    cbn [fst r_inputs]. rewrite map_length, !zip_length, seq_length. cbn [size given] in *. specialize (H7 eq_refl El eq_refl). lia.
  - intros x o Hok. pose proof (ok_prop_given x Hok) as H8. destruct x as [m ch st tr ou pr inp re ck]. cbn [r_prop r_states] in H8. destruct o; cbn [Sim_Model.step r_devices r_channels r_states r_trans r_outs r_prop r_inputs r_recs r_clock fst snd];
      match goal with |- ProcessInputs = ProcessInputs /\ _ \/ _ => idtac | _ => right; trivial_steps end.
    destruct ou as [ou|]; [|right; reflexivity]. destruct (negb (List.length ou =? m)); [right; reflexivity|]. destruct pr as [pr|]; [|right; reflexivity]. destruct (negb (List.length pr =? m)); [right; reflexivity|].
    destruct st as [st|]; [left; split; reflexivity|]. destruct (H8 eq_refl); discriminate.
  - discriminate.
  - intros; lia.
  - split; (intros [H|[H1 H2]]; [left; exact H|right; split; [|exact H2]]); cbn in *; congruence.
Qed.
End P.
