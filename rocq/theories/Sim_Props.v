(** Simulation campaigns (C119). *)
From Coq Require Import String List Arith Bool Reals ZArith Lia Lra.
From Coq Require Import R_Ifp.
From Verif Require Import Base BaseLemmas Monte_Model Sim_Model Sim_Spec Sim_Proofs.
Import ListNotations.
Local Open Scope nat_scope.

Section Runs.
Context {W Chan State Trans Out Sig Inp Rec : Type}.
Variable p : physics W Chan State Trans Out Sig Inp Rec.
Variable draws : nat -> W.
Notation runner := (runner Chan State Trans Out Sig Inp Rec).
Notation step := (step W Chan State Trans Out Sig Inp Rec p draws).
Notation history := (history W Chan State Trans Out Sig Inp Rec p draws).
Notation sequence := (sequence W Chan State Trans Out Sig Inp Rec p draws).
Notation devices := (r_devices Chan State Trans Out Sig Inp Rec).
Notation new := (new_runner Chan State Trans Out Sig Inp Rec).
Notation clock := (r_clock Chan State Trans Out Sig Inp Rec).

(** Executing all stages gives a complete drop: whatever the runner held before, every artifact is computed from those of the same drop *)
Theorem C119_drop (s : runner) t :
  exists s', sequence s (stage_executors t) = Ok s' /\ devices s' = devices s /\ holds p t (fun i => draws (clock s + i)) s'.
Proof.
  destruct (from0 p draws s t (fun i => draws (clock s + i))) as [s' [H1 [H2 [H3 H4]]]]; try (cbv beta; f_equal; lia).
  exists s'. split; [exact H1|]. split; [exact H2|exact H4].
Qed.

(** Executing the stages from some stage on gives a drop that keeps the random draws of the earlier stages (and the timestamp, unless the states are sampled again) *)
Theorem C119_reexecution (s : runner) t ws t' start : start <= 6 -> holds p t ws s ->
  exists s', sequence s (executed t' start 6) = Ok s' /\ devices s' = devices s /\
    holds p (if start <=? 1 then t' else t) (fun i => if i <? start then ws i else draws (clock s + (i - start))) s'.
Proof.
  intros Hs [H1 [H2 [H3 [H4 [H5 [H6 H7]]]]]].
  assert (K : start = 0 \/ start = 1 \/ start = 2 \/ start = 3 \/ start = 4 \/ start = 5 \/ start = 6) by lia.
  set (ws' := fun i => if i <? start then ws i else draws (clock s + (i - start))).
  destruct K as [->|[->|[->|[->|[->|[->| ->]]]]]]; cbn [executed stage_executors firstn skipn Nat.sub Nat.leb].
  - destruct (from0 p draws s t' ws') as [s' [F1 [F2 [F3 F4]]]]; try (unfold ws'; cbn [Nat.ltb Nat.leb]; f_equal; lia). exists s'. auto.
  - destruct (from1 p draws s t' ws') as [s' [F1 [F2 [F3 F4]]]]; try (unfold ws'; cbn [Nat.ltb Nat.leb]; f_equal; lia); try exact H1. exists s'. auto.
  - destruct (from2 p draws s t ws') as [s' [F1 [F2 [F3 F4]]]]; try (unfold ws'; cbn [Nat.ltb Nat.leb]; f_equal; lia); try exact H1; try exact H2. exists s'. auto.
  - destruct (from3 p draws s t ws') as [s' [F1 [F2 [F3 F4]]]]; try (unfold ws'; cbn [Nat.ltb Nat.leb]; f_equal; lia); try exact H1; try exact H2; try exact H3. exists s'. auto.
  - destruct (from4 p draws s t ws') as [s' [F1 [F2 [F3 F4]]]]; try (unfold ws'; cbn [Nat.ltb Nat.leb]; f_equal; lia); try exact H1; try exact H2; try exact H3; try exact H4. exists s'. auto.
  - destruct (from5 p draws s t ws') as [s' [F1 [F2 [F3 F4]]]]; try (unfold ws'; cbn [Nat.ltb Nat.leb]; f_equal; lia); try exact H1; try exact H2; try exact H3; try exact H4; try exact H5. exists s'. auto.
  - destruct (from6 p draws s t ws') as [s' [F1 [F2 [F3 F4]]]]; try (unfold ws'; cbn [Nat.ltb Nat.leb]; f_equal; lia); try exact H1; try exact H2; try exact H3; try exact H4; try exact H5; try exact H6. exists s'. auto.
Qed.

(** Calling stages out of order: each succeeds if and only if the stages it needs have been called *)
Lemma count_eq {A} (o : option (list A)) n : count o = S n <-> exists l, o = Some l /\ List.length l = n.
Proof.
  destruct o as [l|]; cbn [count].
  - split; [intros H; exists l; split; [reflexivity|lia]|intros [l' [E H]]; injection E as ->; lia].
  - split; [discriminate|intros [l' [E _]]; discriminate].
Qed.
Theorem C119_propagation n ops :
  let s := history (new n) ops in
  (snd (step s Propagate) = None <-> In RealizeChannels ops /\ sampled ops /\ performed p draws GenerateOutputs n ops) /\
  (~ In RealizeChannels ops \/ ~ sampled ops \/ ~ In GenerateOutputs ops -> snd (step s Propagate) = Some RuntimeError).
Proof.
  intros s. pose proof (outs_given p draws ops n) as Kg. fold s in Kg. pose proof (states_from p draws ops n) as Ks. pose proof (channels_from p draws ops n) as Kc. pose proof (outs_now p draws n ops) as Ko.
  cbv zeta in Ko. fold s in Ks, Kc, Ko. rewrite count_eq in Ko. rewrite <- Ks, <- Kc, <- Ko. cbn [Sim_Model.step].
  destruct (r_states Chan State Trans Out Sig Inp Rec s) as [st|]; cbn [given].
  2:{ split; [split; [discriminate|intros [_ [X _]]; discriminate]|reflexivity]. }
  destruct (r_channels Chan State Trans Out Sig Inp Rec s) as [ch|]; cbn [given].
  2:{ split; [split; [discriminate|intros [X _]; discriminate]|reflexivity]. }
  destruct (r_outs Chan State Trans Out Sig Inp Rec s) as [ou|]; cbn [given] in Kg.
  - split; [|intros [X|[X|X]]; exfalso; apply X; try reflexivity; apply Kg; reflexivity]. destruct (Nat.eqb_spec (List.length ou) (devices s)) as [E|E]; cbn [negb snd].
    + split; [|reflexivity]. intros _. split; [reflexivity|]. split; [reflexivity|]. exists ou. split; [reflexivity|exact E].
    + split; [discriminate|]. intros [_ [_ [l [X Y]]]]. injection X as <-. contradiction.
  - split; [|reflexivity]. split; [discriminate|]. intros [_ [_ [l [X _]]]]. discriminate.
Qed.
Theorem C119_processing n ops :
  let s := history (new n) ops in
  (snd (step s ProcessInputs) = None <-> performed p draws Propagate n ops) /\
  (~ performed p draws Propagate n ops -> snd (step s ProcessInputs) = Some RuntimeError).
Proof.
  intros s. pose proof (prop_now p draws n ops) as Kp. cbv zeta in Kp. fold s in Kp.
  assert (Hok : ok s) by (apply ok_history, ok_new).
  assert (Q : performed p draws Propagate n ops -> exists ou, r_outs _ _ _ _ _ _ _ s = Some ou /\ List.length ou = devices s).
  { intros [before [after [E [E1 E2]]]]. apply (count_eq (r_outs _ _ _ _ _ _ _ s)). apply (outs_now p draws n ops).
    destruct (proj1 (proj1 (C119_propagation n before)) E1) as [_ [_ [b [a [F [F1 F2]]]]]].
    exists b, (a ++ Propagate :: after). split; [rewrite E, F, <- app_assoc; reflexivity|]. split; [exact F1|]. rewrite in_app_iff. intros [X|[X|X]]; [contradiction|discriminate|contradiction]. }
  rewrite <- Kp in Q |- *. rewrite count_eq in Q |- *. destruct Hok as [G1 G2 G3 G4 G5 G6 G7 G8 G9]. cbn [Sim_Model.step].
  destruct (r_outs Chan State Trans Out Sig Inp Rec s) as [ou|].
  2:{ split; [|reflexivity]. split; [discriminate|]. intros X. destruct (Q X) as [x [Y _]]. discriminate. }
  destruct (Nat.eqb_spec (List.length ou) (devices s)) as [E|E]; cbn [negb].
  2:{ split; [|reflexivity]. split; [discriminate|]. intros X. destruct (Q X) as [x [Y Z]]. injection Y as <-. contradiction. }
  destruct (r_prop Chan State Trans Out Sig Inp Rec s) as [pr|].
  2:{ split; [|reflexivity]. split; [discriminate|]. intros [x [Y _]]. discriminate. }
  destruct (Nat.eqb_spec (List.length pr) (devices s)) as [E'|E']; cbn [negb].
  2:{ split; [|reflexivity]. split; [discriminate|]. intros [x [Y Z]]. injection Y as <-. contradiction. }
  destruct (r_states Chan State Trans Out Sig Inp Rec s) as [st|].
  2:{ destruct (G8 eq_refl). discriminate. }
  split; [split; [intros _; exists pr; split; [reflexivity|exact E']|reflexivity]|].
  intros X. exfalso. apply X. exists pr. split; [reflexivity|exact E'].
Qed.
Theorem C119_reception n ops :
  let s := history (new n) ops in
  (snd (step s ReceiveOperators) = None <-> performed p draws ProcessInputs n ops \/ n = 0 /\ ~ In AddDevice ops) /\
  (snd (step s ReceiveOperators) <> None -> snd (step s ReceiveOperators) = Some ValueError).
Proof.
  intros s. pose proof (inputs_now p draws n ops) as K. cbv zeta in K. fold s in K. rewrite <- K. cbn [Sim_Model.step].
  destruct (Nat.eqb_spec (List.length (r_inputs Chan State Trans Out Sig Inp Rec s)) (devices s)) as [E|E]; cbn [negb snd].
  - split; [split; [intros _; exact E|reflexivity]|intros X; contradiction].
  - split; [split; [discriminate|intros X; contradiction]|reflexivity].
Qed.
(** Generating outputs before transmitting is not reported as the other missing stages are *)
Theorem C119_generation n ops : ~ In TransmitOperators ops -> snd (step (history (new n) ops) GenerateOutputs) = Some TypeError.
Proof.
  intros H. pose proof (trans_from p draws ops n) as K. cbn [Sim_Model.step]. destruct (r_trans Chan State Trans Out Sig Inp Rec (history (new n) ops)) as [l|]; [|reflexivity].
  exfalso. apply H. apply K. reflexivity.
Qed.
(** A failing call leaves everything as it was *)
Theorem C119_unchanged n ops o : let s := history (new n) ops in snd (step s o) <> None -> fst (step s o) = s.
Proof.
  intros s H. assert (Hok : ok s) by (apply ok_history, ok_new). pose proof (ok_prop_given s Hok) as G. destruct s as [m ch st tr ou pr inp re ck]. destruct o; cbn [Sim_Model.step r_devices r_channels r_states r_trans r_outs r_prop r_inputs r_recs r_clock fst snd] in *.
  1-3: contradiction.
  - destruct tr as [tr|]; [|reflexivity]. destruct (negb (List.length tr =? m)); [reflexivity|contradiction].
  - destruct st as [st|]; [|reflexivity]. destruct ch as [ch|]; [|reflexivity]. destruct ou as [ou|]; [|reflexivity]. destruct (negb (List.length ou =? m)); [reflexivity|contradiction].
  - destruct ou as [ou|]; [|reflexivity]. destruct (negb (List.length ou =? m)); [reflexivity|]. destruct pr as [pr|]; [|reflexivity]. destruct (negb (List.length pr =? m)); [reflexivity|].
    destruct st as [st|]; [contradiction|]. destruct (G eq_refl). discriminate.
  - destruct (negb (List.length inp =? m)); [reflexivity|contradiction].
  - contradiction.
Qed.
End Runs.

(** A concrete scenario: numbers that record what they were computed from *)
Definition demo (noise : nat) : physics nat nat nat nat nat nat nat nat :=
  mkPhysics _ _ _ _ _ _ _ _ (fun w => [w]) (fun d _ => d) (fun d st w => d + st + w) (fun d tr _ w => d + tr + w) (fun d outs _ _ => fold_right Nat.add d outs)
    (fun d sig _ _ w => sig + w + noise) (fun d inp _ w => inp + w).
Notation demo_step noise := (step _ _ _ _ _ _ _ _ (demo noise) (fun i => i)).
Notation demo_history noise := (history _ _ _ _ _ _ _ _ (demo noise) (fun i => i)).
Notation demo_sequence noise := (sequence _ _ _ _ _ _ _ _ (demo noise) (fun i => i)).
Notation demo_runner n := (new_runner nat nat nat nat nat nat nat n).
Example C119_drop_met : exists s', demo_sequence 5 (demo_runner 2) (stage_executors 0) = Ok s' /\ r_recs _ _ _ _ _ _ _ s' = [29; 30].
Proof. eexists. split; [vm_compute; reflexivity|reflexivity]. Qed.
Example C119_reexecution_met : exists s s', demo_sequence 5 (demo_runner 2) (stage_executors 0) = Ok s /\ holds (demo 5) 0 (fun i => i) s /\
  demo_sequence 5 s (executed 0 5 6) = Ok s' /\ r_recs _ _ _ _ _ _ _ s' = [33; 34].
Proof. eexists. eexists. split; [vm_compute; reflexivity|]. split; [repeat split; vm_compute; reflexivity|]. split; [vm_compute; reflexivity|reflexivity]. Qed.
Example C119_propagation_met : In RealizeChannels [RealizeChannels; SampleStates 0; TransmitOperators; GenerateOutputs] /\ sampled [RealizeChannels; SampleStates 0; TransmitOperators; GenerateOutputs] /\
  performed (demo 5) (fun i => i) GenerateOutputs 2 [RealizeChannels; SampleStates 0; TransmitOperators; GenerateOutputs].
Proof.
  split; [left; reflexivity|]. split; [exists 0%R; right; left; reflexivity|]. exists [RealizeChannels; SampleStates 0; TransmitOperators], []. split; [reflexivity|]. split; [reflexivity|intros []].
Qed.
Example C119_propagation_other_met : ~ sampled [RealizeChannels; TransmitOperators; GenerateOutputs] /\
  snd (demo_step 5 (demo_history 5 (demo_runner 2) [RealizeChannels; SampleStates 0; TransmitOperators; GenerateOutputs; AddDevice]) Propagate) = Some ValueError.
Proof. split; [intros [t [H|[H|[H|[]]]]]; discriminate|reflexivity]. Qed.
Example C119_processing_met : performed (demo 5) (fun i => i) Propagate 2 [RealizeChannels; SampleStates 0; TransmitOperators; GenerateOutputs; Propagate; SampleStates 1] /\
  snd (demo_step 5 (demo_history 5 (demo_runner 2) [RealizeChannels; SampleStates 0; TransmitOperators; GenerateOutputs; Propagate; AddDevice]) ProcessInputs) = Some RuntimeError.
Proof. split; [|reflexivity]. exists [RealizeChannels; SampleStates 0; TransmitOperators; GenerateOutputs], [SampleStates 1]. split; [reflexivity|]. split; [reflexivity|intros [H|[]]; discriminate]. Qed.
Example C119_reception_met : snd (demo_step 5 (demo_history 5 (demo_runner 2) (firstn 6 (stage_executors 0))) ReceiveOperators) = None /\
  snd (demo_step 5 (demo_history 5 (demo_runner 2) (firstn 5 (stage_executors 0))) ReceiveOperators) = Some ValueError.
Proof. split; reflexivity. Qed.
Example C119_generation_met : ~ In TransmitOperators [RealizeChannels; SampleStates 0].
Proof. intros [H|[H|[]]]; discriminate. Qed.
Example C119_unchanged_met : snd (demo_step 5 (demo_history 5 (demo_runner 2) [RealizeChannels; SampleStates 0]) ProcessInputs) <> None.
Proof. discriminate. Qed.
Print Assumptions C119_drop.
Print Assumptions C119_reexecution.
Print Assumptions C119_propagation.
Print Assumptions C119_processing.
Print Assumptions C119_reception.
Print Assumptions C119_generation.
Print Assumptions C119_unchanged.

(** Stages are named by their position; 7 is "receive_devices", the only impact the library's own dimensions are registered with (scenario.py 366, 380, simulated_device.py 1349, 1360), which is not a stage *)
Definition stages : list nat := [0; 1; 2; 3; 4; 5; 6].
(** Sweeping the library's registered dimensions executes every stage *)
Theorem C119_registered changed : changed <> [] -> Forall (fun d => (d_first d = None \/ d_first d = Some 7) /\ d_last d = None) changed -> impacts stages changed = (0, 6).
Proof.
  intros Hn H. unfold impacts.
  assert (K : forall l a, Forall (fun d => (d_first d = None \/ d_first d = Some 7) /\ d_last d = None) l -> (fst a = 0 \/ fst a = 7) -> l <> [] ->
    let r := fold_left (impact_step stages) l a in (fst r = 0 \/ fst r = 7) /\ snd r = 6).
  { induction l as [|d l IH]; intros a Hf Ha Hl; [contradiction|]. cbn [fold_left]. inversion Hf as [|x y [Hd1 Hd2] Hf']; subst.
    assert (Q : (fst (impact_step stages a d) = 0 \/ fst (impact_step stages a d) = 7) /\ snd (impact_step stages a d) = 6).
    { unfold impact_step. rewrite Hd2. destruct Hd1 as [->| ->]; cbn [index_of stages Nat.eqb option_map fst snd List.length]; split; try reflexivity; [left; reflexivity|exact Ha]. }
    destruct l as [|d' l']; [exact Q|]. apply IH; [exact Hf'|exact (proj1 Q)|discriminate]. }
  specialize (K changed (List.length stages, 0) H (or_intror eq_refl) Hn). cbv zeta in K. destruct (fold_left (impact_step stages) changed (List.length stages, 0)) as [first last].
  cbn [fst snd] in K. destruct K as [[-> | ->] ->]; reflexivity.
Qed.
Example C119_registered_met : impacts stages [mkDim 0 3 (Some 7) None; mkDim 1 2 None None] = (0, 6).
Proof. reflexivity. Qed.
Print Assumptions C119_registered.
(** Together with a dimension that only affects the operators, a change of the noise level is not seen: the inputs of the devices are those processed with the old noise *)
Theorem C119_noise_refuted :
  exists noise operator, d_first noise = Some 7 /\ d_first operator = Some 6 /\ impacts stages [noise; operator] = (6, 6) /\
  exists s s', demo_sequence 5 (demo_runner 2) (stage_executors 0) = Ok s /\ demo_sequence 9 s (executed 0 6 6) = Ok s' /\
  (exists ws, holds (demo 5) 0 ws s') /\ forall ws, r_inputs _ _ _ _ _ _ _ s' <> map (input_of (demo 9) 2 0 (fun i => if i <? 6 then i else ws i)) (seq 0 2).
Proof.
  exists (mkDim 0 2 (Some 7) None), (mkDim 1 2 (Some 6) None). split; [reflexivity|]. split; [reflexivity|]. split; [reflexivity|]. eexists. eexists. split; [vm_compute; reflexivity|]. split; [vm_compute; reflexivity|].
  split; [exists (fun i => if i <? 6 then i else 7); repeat split; vm_compute; reflexivity|]. intros ws. cbv. discriminate.
Qed.
Print Assumptions C119_noise_refuted.

(** * Timestamps *)
Lemma ceiling_bounds x : (IZR (ceiling x) - 1 < x <= IZR (ceiling x))%R.
Proof. unfold ceiling. rewrite opp_IZR. destruct (base_Int_part (- x)) as [H1 H2]. lra. Qed.
Lemma largest l : forall x, let m := fold_left Rmax l x in In m (x :: l) /\ forall y, In y (x :: l) -> (y <= m)%R.
Proof.
  induction l as [|a l IH]; intros x m; unfold m; clear m.
  - split; [left; reflexivity|]. intros y [<-|[]]. apply Rle_refl.
  - cbn [fold_left]. destruct (IH (Rmax x a)) as [H1 H2]. split.
    + destruct H1 as [<-|H1]; [|right; right; exact H1]. unfold Rmax. destruct (Rle_dec x a); [right; left; reflexivity|left; reflexivity].
    + intros y Hy. assert (K : (Rmax x a <= fold_left Rmax l (Rmax x a))%R) by (apply H2; left; reflexivity). destruct Hy as [<-|[<-|Hy]].
      * eapply Rle_trans; [apply Rmax_l|exact K].
      * eapply Rle_trans; [apply Rmax_r|exact K].
      * apply H2. right. exact Hy.
Qed.
(** The announced timestamps are the multiples of the interval before the end of the longest trajectory *)
Theorem C119_announced ends d pl : (0 < d)%R -> campaign ends (Some d) = Ok pl ->
  (Forall (fun e => e <= 0)%R ends -> announced pl = [0%R]) /\
  (Exists (fun e => 0 < e)%R ends -> exists N, announced pl = map (fun k => INR k * d)%R (seq 0 N) /\
     (forall k, k < N <-> exists e, In e ends /\ (INR k * d < e)%R)).
Proof.
  intros Hd. unfold campaign. destruct ends as [|x l]; [discriminate|]. cbn [max_timestamp bind]. destruct (largest l x) as [M1 M2]. set (m := fold_left Rmax l x) in *.
  intros E. injection E as <-. cbn [announced]. split.
  - intros H. rewrite List.Forall_forall in H. specialize (H m M1). destruct (Rlt_dec 0 m); [lra|reflexivity].
  - intros H. apply List.Exists_exists in H. destruct H as [e [He1 He2]]. pose proof (M2 e He1) as He3. destruct (Rlt_dec 0 m) as [Hm|Hm]; [|lra].
    unfold arange. set (N := Z.to_nat (ceiling (m / d))). exists N. split; [reflexivity|]. intros k.
    assert (Q : (0 < m / d)%R) by (apply Rdiv_lt_0_compat; assumption). pose proof (ceiling_bounds (m / d)) as [B1 B2].
    assert (Hc : (0 <= ceiling (m / d))%Z) by (apply le_IZR; lra).
    assert (R1 : (INR k * d < m)%R <-> (INR k < m / d)%R).
    { split; intros X; [apply (Rmult_lt_reg_r d); [exact Hd|]|apply (Rmult_lt_compat_r d) in X; [|exact Hd]]; unfold Rdiv in *; rewrite Rmult_assoc, Rinv_l, Rmult_1_r in * by lra; exact X. }
    assert (R2 : k < N <-> (INR k < m / d)%R).
    { rewrite INR_IZR_INZ. unfold N. split; intros X.
      - assert (Y : (Z.of_nat k + 1 <= ceiling (m / d))%Z) by lia. apply IZR_le in Y. rewrite plus_IZR in Y. lra.
      - assert (Y : (Z.of_nat k < ceiling (m / d))%Z) by (apply lt_IZR; lra). lia. }
    rewrite R2, <- R1. split; [intros X; exists m; split; [exact M1|exact X]|intros [e' [X1 X2]]; pose proof (M2 e' X1); lra].
Qed.
Example C119_announced_met : exists pl, campaign [0%R; 10%R] (Some 4%R) = Ok pl /\ Exists (fun e => 0 < e)%R [0%R; 10%R].
Proof. eexists. split; [reflexivity|]. right. left. lra. Qed.
Print Assumptions C119_announced.
(** Without devices a campaign cannot be run, and intervals must be positive *)
Theorem C119_no_devices ends interval : (exists e, campaign ends interval = Raise e) <-> ends = [].
Proof. destruct ends as [|x l]; split; [reflexivity|intros _; eexists; reflexivity|intros [e H]; discriminate|discriminate]. Qed.
Theorem C119_interval value : (exists v, set_drop_interval value = Ok v) <-> (0 < value)%R.
Proof. unfold set_drop_interval. destruct (Rle_dec value 0); split; [intros [v H]; discriminate|lra|lra|intros _; eexists; reflexivity]. Qed.
Print Assumptions C119_no_devices.
Print Assumptions C119_interval.
(** But every drop of a campaign is generated at time zero, whatever the trajectories and the interval; and the collected arguments would not be accepted *)
Theorem C119_timestamps ends interval pl : campaign ends interval = Ok pl ->
  timestamps_of (passed pl) = [0%R] /\ (collected pl <> [] -> actor_accepts (map fst (collected pl)) = Raise ValueError).
Proof.
  unfold campaign. destruct (max_timestamp ends) as [m|]; [|discriminate]. cbn [bind]. intros E. injection E as <-. cbn [passed collected]. split; [reflexivity|].
  destruct (Rlt_dec _ _); [intros _; reflexivity|intros X; contradiction].
Qed.
Lemma announced_ten : exists pl, campaign [10%R] (Some 4%R) = Ok pl /\ announced pl = [0 * 4; 1 * 4; 2 * 4]%R /\ collected pl <> [].
Proof.
  eexists. split; [reflexivity|]. cbn [announced collected max_timestamp fold_left].
  assert (C : ceiling (10 / 4) = 3%Z). { pose proof (ceiling_bounds (10 / 4)) as [B1 B2]. assert (ceiling (10 / 4) < 4)%Z by (apply lt_IZR; lra). assert (2 < ceiling (10 / 4))%Z by (apply lt_IZR; lra). lia. }
  assert (A : (if Rlt_dec 0 10 then arange 10 (Some 4%R) else [0%R]) = [0 * 4; 1 * 4; 2 * 4]%R).
  { destruct (Rlt_dec 0 10); [|lra]. unfold arange. rewrite C. cbn. reflexivity. }
  rewrite A. split; [reflexivity|]. cbn [last]. destruct (Rlt_dec 0 (2 * 4)); [discriminate|lra].
Qed.
Example C119_timestamps_met : exists pl, campaign [10%R] (Some 4%R) = Ok pl /\ collected pl <> [].
Proof. destruct announced_ten as [pl [H1 [_ H2]]]. exists pl. split; assumption. Qed.
Theorem C119_trajectories_refuted : ~ forall ends interval pl, campaign ends interval = Ok pl -> timestamps_of (passed pl) = announced pl.
Proof.
  intros H. destruct announced_ten as [pl [H1 [H2 _]]]. pose proof (H _ _ _ H1) as K. rewrite H2, (proj1 (C119_timestamps _ _ _ H1)) in K. discriminate.
Qed.
(** Arguments are only accepted for the seven stages *)
Theorem C119_stage_names keys : actor_accepts keys = Ok tt <->
  Forall (fun k => k = "realize_channels" \/ k = "sample_states" \/ k = "transmit_operators" \/ k = "generate_outputs" \/ k = "propagate" \/ k = "process_inputs" \/ k = "receive_operators")%string keys.
Proof.
  unfold actor_accepts. rewrite Forall_forall. destruct (forallb _ keys) eqn:E.
  - rewrite forallb_forall in E. split; [|reflexivity]. intros _ k Hk. specialize (E k Hk). apply existsb_exists in E as [n [Hn En]]. apply String.eqb_eq in En. subst n.
    unfold stage_identifiers in Hn. cbn [In] in Hn. intuition auto.
  - split; [discriminate|]. intros H. exfalso. assert (X : forallb (fun k => existsb (String.eqb k) stage_identifiers) keys = true); [|congruence].
    apply forallb_forall. intros k Hk. apply existsb_exists. exists k. split; [|apply String.eqb_refl]. unfold stage_identifiers. cbn [In]. specialize (H k Hk). intuition auto.
Qed.
Example C119_stage_names_met : actor_accepts ["propagate"; "sample_states"]%string = Ok tt /\ actor_accepts ["propagate"; "sample_trajectories"]%string = Raise ValueError.
Proof. split; reflexivity. Qed.
Print Assumptions C119_stage_names.
Print Assumptions C119_timestamps.
Print Assumptions C119_trajectories_refuted.

(** * Seeds *)
(** Actors of a campaign have different seeds, but another campaign may use the same ones for other actors *)
Theorem C119_seeds drawn i j : actor_seed drawn i = actor_seed drawn j -> i = j.
Proof. unfold actor_seed. intros H. lia. Qed.
Theorem C119_seeds_refuted drawn i : exists drawn', drawn' <> drawn /\ actor_seed drawn' i = actor_seed drawn (S i).
Proof.
  assert (K : forall c : Z, (0 < c)%Z -> exists drawn', drawn' <> drawn /\ (Z.of_nat drawn' + Z.of_nat i * c = Z.of_nat drawn + Z.of_nat (S i) * c)%Z).
  { intros c Hc. exists (drawn + Z.to_nat c). split; lia. }
  apply K. reflexivity.
Qed.
Example C119_seeds_met : actor_seed 3 0 = 3%Z /\ actor_seed 3 2 = 24691359%Z.
Proof. split; reflexivity. Qed.
Print Assumptions C119_seeds.
Print Assumptions C119_seeds_refuted.

(** * Pages *)
Lemma in_shown sections refresh s : In s (shown sections refresh) <-> s < sections /\ refresh mod num_pages sections = s / entries_per_page sections.
Proof.
  unfold shown. rewrite filter_In, in_seq. cbv zeta. set (page := refresh mod num_pages sections). set (e := entries_per_page sections).
  assert (He : 0 < e) by (unfold e, entries_per_page; lia).
  assert (Q : negb ((s <? page * e) || ((page + 1) * e <=? s)) = true <-> page = s / e).
  { rewrite negb_true_iff, orb_false_iff, Nat.ltb_ge, Nat.leb_gt. split.
    - intros [A B]. apply (Nat.div_unique s e page (s - page * e)); nia.
    - intros ->. pose proof (Nat.div_mod s e). pose proof (Nat.mod_upper_bound s e). split; nia. }
  rewrite Q. split; intros [A B]; split; try exact B; lia.
Qed.
(** Cycling once through the pages shows every section exactly once, at most eight at a time *)
Theorem C119_pages sections first s : s < sections ->
  exists i, i < num_pages sections /\ In s (shown sections (first + i)) /\ forall j, j < num_pages sections -> In s (shown sections (first + j)) -> j = i.
Proof.
  intros Hs. set (P := num_pages sections). assert (HP : 0 < P) by (unfold P, num_pages; lia). set (e := entries_per_page sections).
  assert (Hq : s / e < P). { apply Nat.div_lt_upper_bound; [unfold e, entries_per_page; lia|]. unfold e, entries_per_page. fold P. pose proof (Nat.div_mod sections P). pose proof (Nat.mod_upper_bound sections P). nia. }
  pose proof (Nat.mod_upper_bound first P) as Hf. pose proof (Nat.div_mod first P) as Hd.
  assert (K : forall j, j < P -> ((first + j) mod P = s / e <-> j = if s / e <? first mod P then P + s / e - first mod P else s / e - first mod P)).
  { intros j Hj. assert (E : (first + j) mod P = if first mod P + j <? P then first mod P + j else first mod P + j - P).
    { destruct (Nat.ltb_spec (first mod P + j) P) as [L|L]; symmetry.
      - apply (Nat.mod_unique _ _ (first / P)); [exact L|lia].
      - apply (Nat.mod_unique _ _ (S (first / P))); [lia|]. rewrite Nat.mul_succ_r. lia. }
    rewrite E. destruct (Nat.ltb_spec (first mod P + j) P), (Nat.ltb_spec (s / e) (first mod P)); lia. }
  exists (if s / e <? first mod P then P + s / e - first mod P else s / e - first mod P).
  assert (B : (if s / e <? first mod P then P + s / e - first mod P else s / e - first mod P) < P) by (destruct (Nat.ltb_spec (s / e) (first mod P)); lia).
  split; [exact B|]. split.
  - apply in_shown. split; [exact Hs|]. apply K; [exact B|reflexivity].
  - intros j Hj Hin. apply in_shown in Hin. apply K; [exact Hj|apply Hin].
Qed.
Theorem C119_page_size sections refresh : List.length (shown sections refresh) <= 8.
Proof.
  assert (He : entries_per_page sections <= 8).
  { unfold entries_per_page. assert (sections / num_pages sections < 8); [|lia]. apply Nat.div_lt_upper_bound; unfold num_pages; [lia|]. pose proof (Nat.div_mod sections 8). pose proof (Nat.mod_upper_bound sections 8). lia. }
  eapply Nat.le_trans; [|exact He]. set (e := entries_per_page sections) in *. assert (E0 : 0 < e) by (unfold e, entries_per_page; lia). set (q := refresh mod num_pages sections).
  rewrite <- (seq_length e (q * e)). apply NoDup_incl_length; [apply NoDup_filter, seq_NoDup|]. intros s Hs. apply in_shown in Hs. destruct Hs as [_ Hs]. fold e q in Hs. apply in_seq.
  pose proof (Nat.div_mod s e). pose proof (Nat.mod_upper_bound s e). nia.
Qed.
Example C119_pages_met : shown 9 0 = [0; 1; 2; 3; 4] /\ shown 9 1 = [5; 6; 7; 8] /\ shown 9 2 = [0; 1; 2; 3; 4].
Proof. repeat split; reflexivity. Qed.
Print Assumptions C119_pages.
Print Assumptions C119_page_size.

(** * Saved results *)
Section Saved.
Variable numeral : nat -> string.
Hypothesis distinct_numerals : forall a b, numeral a = numeral b -> a = b.
Lemma lookup_last : forall (l : list (string * saved)) key v (acc : option saved), ~ In key (map fst l) -> fold_left (fun acc q => if String.eqb (fst q) key then Some (snd q) else acc) ((key, v) :: l) acc = Some v.
Proof.
  intros l key v acc H. cbn [fold_left fst snd]. rewrite String.eqb_refl. induction l as [|[k x] l IH]; [reflexivity|]. cbn [fold_left fst snd]. cbn [map fst] in H.
  destruct (String.eqb_spec k key) as [->|_]; [exfalso; apply H; left; reflexivity|]. apply IH. intros X. apply H. right. exact X.
Qed.
Lemma lookup_split a key v b : ~ In key (map fst b) -> lookup key (a ++ (key, v) :: b) = Some v.
Proof. intros H. unfold lookup. rewrite fold_left_app. apply lookup_last. exact H. Qed.
Lemma seq_split n r : r < n -> seq 0 n = seq 0 r ++ r :: seq (S r) (n - S r).
Proof. intros H. replace n with (r + (S (n - S r))) at 1 by lia. rewrite seq_app. reflexivity. Qed.
(** Sample points are found under the titles of their dimensions if the titles differ *)
Theorem C119_saved_points titles abbreviations results d : NoDup titles -> d < List.length titles ->
  lookup (nth d titles ""%string) (assignments numeral titles abbreviations results) = Some (Points d).
Proof.
  intros Hn Hd. unfold assignments. rewrite (seq_split (List.length titles) d Hd), map_app. cbn [map]. rewrite !app_assoc. apply lookup_split.
  rewrite map_map. cbn [fst]. intros X. apply in_map_iff in X. destruct X as [k [E Hk]]. apply in_seq in Hk.
  assert (k = d); [|lia]. apply (proj1 (NoDup_nth titles ""%string) Hn); [lia|exact Hd|exact E].
Qed.
(** Results are found if no dimension has the title of theirs *)
Theorem C119_saved_results titles abbreviations results r : r < results -> ~ In ("result_" ++ numeral r)%string titles ->
  lookup ("result_" ++ numeral r)%string (assignments numeral titles abbreviations results) = Some (Result r).
Proof.
  intros Hr Hn. unfold assignments. set (pre := [("dimensions"%string, Titles titles); ("evaluators"%string, Abbreviations abbreviations); ("performance_time"%string, Time)]).
  set (once := map (fun r0 => (("result_" ++ numeral r0)%string, Result r0)) (seq 0 results)).
  set (points := map (fun d => (nth d titles ""%string, Points d)) (seq 0 (List.length titles))).
  replace (pre ++ once ++ once ++ points) with ((pre ++ once ++ map (fun r0 => (("result_" ++ numeral r0)%string, Result r0)) (seq 0 r)) ++ (("result_" ++ numeral r)%string, Result r) ::
    (map (fun r0 => (("result_" ++ numeral r0)%string, Result r0)) (seq (S r) (results - S r)) ++ points)).
  2:{ unfold once at 3. rewrite (seq_split results r Hr), map_app. cbn [map]. rewrite <- !app_assoc. reflexivity. }
  apply lookup_split. rewrite map_app, in_app_iff, map_map. unfold points. rewrite map_map. cbn [fst]. intros [X|X]; apply in_map_iff in X; destruct X as [k [E Hk]]; apply in_seq in Hk.
  - assert (numeral k = numeral r) as E'. { clear - E. cbn in E. congruence. } apply distinct_numerals in E'. lia.
  - apply Hn. rewrite <- E. apply nth_In. lia.
Qed.
(** So are the other entries *)
Theorem C119_saved_others titles abbreviations results :
  (~ In "dimensions"%string titles -> lookup "dimensions" (assignments numeral titles abbreviations results) = Some (Titles titles)) /\
  (~ In "evaluators"%string titles -> lookup "evaluators" (assignments numeral titles abbreviations results) = Some (Abbreviations abbreviations)) /\
  (~ In "performance_time"%string titles -> lookup "performance_time" (assignments numeral titles abbreviations results) = Some Time).
Proof.
  assert (K : forall key, (forall x, ("result_" ++ x)%string <> key) -> ~ In key titles ->
    ~ In key (map fst (map (fun r => (("result_" ++ numeral r)%string, Result r)) (seq 0 results) ++ map (fun r => (("result_" ++ numeral r)%string, Result r)) (seq 0 results)
      ++ map (fun d => (nth d titles ""%string, Points d)) (seq 0 (List.length titles))))).
  { intros key Hk Ht X. rewrite !map_app, !in_app_iff, !map_map in X. cbn [fst] in X. destruct X as [X|[X|X]]; apply in_map_iff in X; destruct X as [k [E Hi]]; [exact (Hk _ E)|exact (Hk _ E)|].
    apply in_seq in Hi. apply Ht. rewrite <- E. apply nth_In. lia. }
  unfold assignments. split; [|split]; intros H.
  - apply (lookup_split []). intros [X|[X|X]]; [discriminate|discriminate|]. revert X. apply K; [intros x; discriminate|exact H].
  - apply (lookup_split [("dimensions"%string, Titles titles)]). intros [X|X]; [discriminate|]. revert X. apply K; [intros x; discriminate|exact H].
  - apply (lookup_split [("dimensions"%string, Titles titles); ("evaluators"%string, Abbreviations abbreviations)]). apply K; [intros x; discriminate|exact H].
Qed.
(** Two dimensions with the same title (the same property of two devices): the points of the first are lost; a dimension titled like another entry replaces it *)
Theorem C119_saved_refuted : forall title abbreviations results,
  (forall k, lookup k (assignments numeral [title; title] abbreviations results) <> Some (Points 0)) /\
  lookup "evaluators" (assignments numeral ["evaluators"%string] abbreviations results) = Some (Points 0).
Proof.
  intros title abbreviations results. split.
  - intros k. unfold lookup, assignments. rewrite !fold_left_app. cbn [map seq List.length nth fold_left fst snd].
    assert (K : forall l acc, acc <> Some (Points 0) -> fold_left (fun acc q => if String.eqb (fst q) k then Some (snd q) else acc) (map (fun r => (("result_" ++ numeral r)%string, Result r)) l) acc <> Some (Points 0)).
    { induction l as [|a l IH]; intros acc Ha; [exact Ha|]. cbn [map fold_left]. apply IH. destruct (String.eqb _ k); [discriminate|exact Ha]. }
    destruct (String.eqb title k); [discriminate|]. apply K, K. destruct (String.eqb "performance_time" k); [discriminate|]. destruct (String.eqb "evaluators" k); [discriminate|]. destruct (String.eqb "dimensions" k); discriminate.
  - unfold assignments. cbn [List.length seq map nth]. rewrite !app_assoc. apply lookup_split. intros [].
Qed.
End Saved.
Definition two_numerals (n : nat) : string := match n with 0 => "0" | S k => String.append "1" (string_of_list_ascii (repeat (Ascii.ascii_of_nat 49) k)) end.
Example C119_saved_met : NoDup ["SNR"%string; "speed"%string] /\ ~ In ("result_" ++ "0")%string ["SNR"%string; "speed"%string] /\
  lookup "result_0" (assignments two_numerals ["SNR"%string; "speed"%string] ["BER"%string] 1) = Some (Result 0) /\
  lookup "speed" (assignments two_numerals ["SNR"%string; "speed"%string] ["BER"%string] 1) = Some (Points 1).
Proof.
  split; [|split; [|split; reflexivity]].
  - constructor; [intros [X|[]]; discriminate|]. constructor; [intros []|constructor].
  - intros [X|[X|[]]]; discriminate.
Qed.
Print Assumptions C119_saved_points.
Print Assumptions C119_saved_results.
Print Assumptions C119_saved_others.
Print Assumptions C119_saved_refuted.
