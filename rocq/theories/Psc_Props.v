(** * C134: scenarios of physical devices *)
From Coq Require Import List Arith Bool Lia.
From Verif Require Import Base Psc_Model Psc_Spec Psc_Proofs.
Import ListNotations.
Local Open Scope nat_scope.

Section Physical.
Variables (S St P Q : Type).
Variable air : (nat -> option S) -> nat -> S.
Variable produce : nat -> option St -> result S.
Variable process : nat -> option St -> S -> result P.
Variable operate : nat -> option St -> P -> result Q.
Notation drop := (drop S St P Q air produce process operate).
Notation receive_devices := (receive_devices S St P Q process operate).
Notation transmit_devices := (transmit_devices S St produce).

(** In a drop the system is executed once, after all devices have uploaded what they transmit.  Each device receives what it recorded
    while all devices transmitted together *)
Theorem C134_drops : forall devices members w w' ts rs, NoDup devices -> incl devices members -> drop devices members w = (w', Ok (ts, rs)) ->
  length ts = length devices /\ length rs = length devices /\ executions w' = 1 + executions w /\
  exists sent, sent_together sent (uploads w) members devices (fun d t => produce d None = Ok t) /\
  forall i d, nth_error devices i = Some d -> exists t p q, nth_error ts i = Some t /\ nth_error rs i = Some (p, q) /\
    produce d None = Ok t /\ process d None (air sent d) = Ok p /\ operate d None p = Ok q.
Proof.
  intros devices members w w' ts rs N I H. unfold Psc_Model.drop, Psc_Model.transmit_devices in H. cbn [given] in H. rewrite combine_repeat in H.
  set (l := map (fun a => (a, @None St)) devices) in *.
  assert (Nl : NoDup (map fst l)) by (unfold l; rewrite map_map; cbn; rewrite map_id; exact N).
  assert (Fl : forall e, In e (map fst l) <-> In e devices) by (intro e; unfold l; rewrite map_map; cbn; rewrite map_id; tauto).
  destruct (each_keeps produce l w) as [EX _]. pose proof (each_untouched produce l w) as U. pose proof (each_ok produce l w) as K.
  destruct (transmit_each S St produce l w) as [w1 r]. cbn [fst snd] in *. destruct r as [ts'|]; [|discriminate].
  destruct (K ts' Nl eq_refl) as [L K2]. clear K.
  set (w2 := execute S air w1 members) in *.
  destruct (receive_devices devices None None w2) as [rs'|] eqn:R; [|discriminate]. injection H as <- <- <-.
  assert (Ll : length l = length devices) by (unfold l; apply map_length).
  unfold Psc_Model.receive_devices in R. cbn [given] in R.
  destruct (mapM (process_one S St P process w2) _) as [ps|] eqn:MP; [|discriminate]. cbn in R.
  unfold Psc_Model.receive_operators in R. destruct (Nat.eqb_spec (length ps) (length devices)) as [LP|]; [|discriminate]. cbn in R.
  destruct (mapM _ (combine (combine devices ps) _)) as [qs|] eqn:MQ; [|discriminate]. cbn in R. injection R as <-.
  destruct (mapM_ok _ _ _ MP) as [_ P2]. destruct (mapM_ok _ _ _ MQ) as [LQ Q2]. rewrite !combine_length, repeat_length in LQ.
  split; [lia|]. split; [rewrite combine_length; lia|]. split; [cbn; lia|].
  exists (fun e => if mem e members then uploads w1 e else None). split.
  - intro e. split; [|split].
    + intro Ie. rewrite (proj2 (mem_in e members)) by (apply I; exact Ie). destruct (In_nth_error _ _ Ie) as [i Hi].
      destruct (K2 i e None) as [t (T1 & T2 & T3)]; [unfold l; rewrite nth_error_map, Hi; reflexivity|]. exists t. auto.
    + intros Im Ne. rewrite (proj2 (mem_in e members) Im). apply U. rewrite Fl. exact Ne.
    + intro Nm. rewrite mem_not by exact Nm. reflexivity.
  - intros i d Hi. assert (Li : i < length devices) by (apply nth_error_Some; congruence).
    destruct (K2 i d None) as [t (T1 & T2 & T3)]; [unfold l; rewrite nth_error_map, Hi; reflexivity|].
    destruct (P2 i (d, None, None)) as [p [Hp Ep]]; [rewrite !nth_combine, Hi, nth_repeat by exact Li; cbv beta iota; rewrite nth_repeat by exact Li; reflexivity|].
    destruct (Q2 i (d, p, None)) as [q [Hq Eq]]; [rewrite !nth_combine, Hi, Hp, nth_repeat by exact Li; reflexivity|].
    exists t, p, q. split; [exact T1|]. split; [rewrite nth_combine, Hp, Hq; reflexivity|]. split; [exact T2|]. split; [|exact Eq].
    unfold process_one, input_of, download in Ep. subst w2. cbn [execute recordings] in Ep. rewrite (proj2 (mem_in d members)) in Ep by (apply I; eapply nth_error_In; exact Hi). exact Ep.
Qed.

(** If the devices can transmit and receive, so can the scenario *)
Theorem C134_drops_succeed : forall devices members w, NoDup devices -> incl devices members ->
  (forall d, In d devices -> exists t, produce d None = Ok t) -> (forall d s, In d devices -> exists p, process d None s = Ok p) ->
  (forall d p, In d devices -> exists q, operate d None p = Ok q) ->
  exists w' ts rs, drop devices members w = (w', Ok (ts, rs)).
Proof.
  intros devices members w N I Hp Hr Ho. unfold Psc_Model.drop, Psc_Model.transmit_devices. cbn [given]. rewrite combine_repeat.
  destruct (each_total produce (map (fun a => (a, @None St)) devices) w) as [ts T]; [intros x Hx; apply in_map_iff in Hx; destruct Hx as [d [<- Hd]]; cbn; auto|].
  destruct (transmit_each S St produce _ w) as [w1 r]. cbn in T. subst r. set (w2 := execute S air w1 members).
  unfold Psc_Model.receive_devices. cbn [given].
  destruct (mapM_total (process_one S St P process w2) (combine (combine devices (repeat None (length devices))) (repeat None (length devices)))) as [ps MP].
  { intros [[d s] i] Hx. apply In_nth_error in Hx. destruct Hx as [k Hk]. rewrite !nth_combine in Hk. destruct (nth_error devices k) as [d'|] eqn:Hd; [|discriminate].
    assert (Lk : k < length devices) by (apply nth_error_Some; congruence). rewrite nth_repeat in Hk by exact Lk. cbv beta iota in Hk. rewrite nth_repeat in Hk by exact Lk. injection Hk as <- <- <-.
    apply nth_error_In in Hd. unfold process_one, input_of, download. subst w2. cbn [execute recordings]. rewrite (proj2 (mem_in d' members)) by (apply I; exact Hd). apply Hr. exact Hd. }
  rewrite MP. cbn. destruct (mapM_ok _ _ _ MP) as [LP _]. rewrite !combine_length, !repeat_length in LP.
  unfold Psc_Model.receive_operators. rewrite (proj2 (Nat.eqb_eq (length ps) (length devices))) by lia. cbn.
  destruct (mapM_total (fun x => let '(d, i, s) := x in operate d s i) (combine (combine devices ps) (repeat None (length devices)))) as [qs MQ].
  { intros [[d p] s] Hx. pose proof (in_combine_r _ _ _ _ Hx) as Hs. apply repeat_spec in Hs. subst s. apply in_combine_l in Hx. apply in_combine_l in Hx. apply Ho. exact Hx. }
  rewrite MQ. cbn. eauto.
Qed.

(** If a device fails to transmit, nothing is executed or recorded, and the devices before it keep the signals uploaded in vain *)
Theorem C134_failed_transmissions : forall before d after members w e, NoDup (before ++ d :: after) ->
  (forall x, In x before -> exists t, produce x None = Ok t) -> produce d None = Raise e ->
  exists w', drop (before ++ d :: after) members w = (w', Raise e) /\ executions w' = executions w /\ recordings w' = recordings w /\
  (forall x, In x before -> exists t, produce x None = Ok t /\ uploads w' x = Some t) /\ (forall x, ~ In x before -> uploads w' x = uploads w x).
Proof.
  intros before d after members w e N Hb Hd. unfold Psc_Model.drop, Psc_Model.transmit_devices. cbn [given]. rewrite combine_repeat, map_app. cbn [map].
  set (l1 := map (fun a => (a, @None St)) before). set (l2 := map (fun a => (a, @None St)) after).
  assert (T : forall x, In x l1 -> exists t, produce (fst x) (snd x) = Ok t) by (intros x Hx; unfold l1 in Hx; apply in_map_iff in Hx; destruct Hx as [y [<- Hy]]; cbn; auto).
  destruct (each_first_failure produce l1 d None l2 w e T Hd) as [F1 F2].
  destruct (transmit_each S St produce (l1 ++ (d, None) :: l2) w) as [w1 r]. cbn in F1, F2. subst r w1. eexists. split; [reflexivity|].
  destruct (each_keeps produce l1 w) as [K1 K2]. split; [exact K1|]. split; [exact K2|].
  assert (M : map fst l1 = before) by (unfold l1; rewrite map_map; cbn; apply map_id).
  split.
  - destruct (each_total produce l1 w T) as [ts E]. destruct (each_ok produce l1 w ts) as [_ K]; [rewrite M; eapply nodup_front; exact N|exact E|].
    intros x Hx. destruct (In_nth_error _ _ Hx) as [i Hi]. destruct (K i x None) as [t (_ & A & B)]; [unfold l1; rewrite nth_error_map, Hi; reflexivity|]. eauto.
  - intros x Hx. apply each_untouched. rewrite M. exact Hx.
Qed.

(** Whatever fails later fails after the signals went on air *)
Theorem C134_failed_receptions : forall devices members w, (forall d, In d devices -> exists t, produce d None = Ok t) ->
  executions (fst (drop devices members w)) = 1 + executions w.
Proof.
  intros devices members w H. unfold Psc_Model.drop, Psc_Model.transmit_devices. cbn [given]. rewrite combine_repeat.
  set (l := map (fun a => (a, @None St)) devices).
  destruct (each_total produce l w) as [ts T]; [intros x Hx; unfold l in Hx; apply in_map_iff in Hx; destruct Hx as [d [<- Hd]]; cbn; auto|].
  destruct (each_keeps produce l w) as [K _]. destruct (transmit_each S St produce l w) as [w1 r]. cbn in *. subst r. cbn. lia.
Qed.

(** Too few signals are an error, but only after those given were processed.  Contrary to the documentation superfluous signals are ignored *)
Theorem C134_numbers_of_signals_refuted : forall devices signals states w,
  (length signals < length devices -> exists e, receive_devices devices (Some signals) states w = Raise e /\
     ((forall d st s, exists p, process d st s = Ok p) -> ~ In None signals -> e = ValueError)) /\
  (forall more, length signals = length devices -> receive_devices devices (Some (signals ++ more)) states w = receive_devices devices (Some signals) states w).
Proof.
  intros devices signals states w. split.
  - intro L. unfold Psc_Model.receive_devices. cbn [given]. set (sts := match states with Some l => l | None => repeat None (length devices) end).
    change (given (length devices) states) with sts.
    destruct (mapM (process_one S St P process w) (combine (combine devices sts) signals)) as [ps|x] eqn:M.
    + cbn. exists ValueError. destruct (mapM_ok _ _ _ M) as [LP _]. rewrite !combine_length in LP. unfold Psc_Model.receive_operators.
      destruct (Nat.eqb_spec (length ps) (length devices)); [lia|]. cbn. auto.
    + cbn. exists x. split; [reflexivity|]. intros Hp Hn. exfalso. destruct (mapM_total (process_one S St P process w) (combine (combine devices sts) signals)) as [r R]; [|congruence].
      intros [[d st] [s|]] Hx; [cbn; apply Hp|]. apply in_combine_r in Hx. contradiction.
  - intros more L. unfold Psc_Model.receive_devices. cbn [given]. set (sts := match states with Some l => l | None => repeat None (length devices) end).
    change (given (length devices) states) with sts.
    assert (C : combine (combine devices sts) (signals ++ more) = combine (combine devices sts) signals); [|rewrite C; reflexivity].
    assert (Lc : length (combine devices sts) <= length signals) by (rewrite combine_length; lia).
    revert Lc. generalize (combine devices sts). clear. induction signals as [|s l IH]; intros [|c cs] Lc; cbn in *; try reflexivity; try lia. rewrite IH by lia. reflexivity.
Qed.

(** With too few states the last devices silently do not transmit *)
Theorem C134_numbers_of_states_refuted : forall devices more states w, length states = length devices ->
  transmit_devices (devices ++ more) (Some states) w = transmit_devices devices (Some states) w /\
  (forall d, ~ In d devices -> uploads (fst (transmit_devices (devices ++ more) (Some states) w)) d = uploads w d).
Proof.
  intros devices more states w L.
  assert (C : combine (devices ++ more) states = combine devices states).
  { revert states L. induction devices as [|d l IH]; intros [|s st] L; cbn in *; try lia; [destruct more; reflexivity|]. rewrite IH by lia. reflexivity. }
  unfold Psc_Model.transmit_devices. cbn [given]. rewrite C. split; [reflexivity|]. intros d H. apply each_untouched. intro I. apply H. apply in_map_iff in I. destruct I as [[a b] [E I]]. cbn in E. subst a. eapply in_combine_l. exact I.
Qed.

(** ** Direct triggers *)
Theorem C134_direct_numbers : forall devices direct ts selected calibrate w, length ts <> length (match selected with None => devices | Some l => l end) ->
  trigger_direct S devices direct ts selected calibrate w = (w, Raise ValueError).
Proof.
  intros devices direct ts selected calibrate w H. unfold trigger_direct. destruct (Nat.eqb_spec (length ts) (length (match selected with None => devices | Some l => l end))); [contradiction|reflexivity].
Qed.

(** USRPs receive while all members of the system transmit, also those that were not selected; calibrations are never applied *)
Theorem C134_usrp_direct : forall devices members ts selected w, let ds := match selected with None => devices | Some l => l end in
  NoDup ds -> incl ds members -> length ts = length ds ->
  exists sent w', sent_together sent (uploads w) members ds (fun d t => exists i, nth_error ds i = Some d /\ nth_error ts i = Some t) /\ executions w' = 1 + executions w /\
  forall calibrate, trigger_direct S devices (usrp_direct S air members) ts selected calibrate w = (w', Ok (map (air sent) ds)).
Proof.
  intros devices members ts selected w ds N I L. destruct (uploads_fold ts ds w L N) as (E & R & U & K).
  set (w1 := fold_left (fun w x => upload S w (snd x) (fst x)) (combine ts ds) w) in *.
  exists (fun e => if mem e members then uploads w1 e else None), (execute S air w1 members). split; [|split].
  - intro e. split; [|split].
    + intro Ie. rewrite (proj2 (mem_in e members)) by (apply I; exact Ie). destruct (In_nth_error _ _ Ie) as [i Hi].
      destruct (nth_error ts i) as [t|] eqn:Ht; [|exfalso; apply nth_error_None in Ht; assert (i < length ds) by (apply nth_error_Some; congruence); lia].
      exists t. split; [eauto|]. eapply K; eassumption.
    + intros Im Ne. rewrite (proj2 (mem_in e members) Im). apply U. exact Ne.
    + intro Nm. rewrite mem_not by exact Nm. reflexivity.
  - cbn. lia.
  - intro calibrate. unfold trigger_direct. fold ds. rewrite (proj2 (Nat.eqb_eq _ _) L). cbn [negb]. unfold usrp_direct. fold w1. f_equal.
    assert (H : incl ds ds) by apply incl_refl. revert H. generalize ds at 1 3 4 as k. induction k as [|d k IH]; intro H; [reflexivity|]. cbn [mapM map].
    unfold download at 1. cbn [execute recordings]. rewrite (proj2 (mem_in d members)) by (apply I, H; left; reflexivity). cbn [bind]. rewrite IH by (intros x Hx; apply H; right; exact Hx). reflexivity.
Qed.

Variable accepts : nat -> S -> bool.
Variable correct : nat -> S -> S.
Variable clean : nat -> S -> S -> S.

(** Sound cards transmit one after the other, so that none receives another; calibrations are applied even if they are switched off *)
Theorem C134_audio_direct : forall devices ts w, length ts = length devices ->
  (forall i d s, nth_error devices i = Some d -> nth_error ts i = Some s -> accepts d s = true) ->
  exists w' rs, executions w' = length devices + executions w /\ length rs = length devices /\
  (forall calibrate, trigger_direct S devices (audio_direct S air accepts correct clean) ts None calibrate w = (w', Ok rs)) /\
  forall i d s, nth_error devices i = Some d -> nth_error ts i = Some s ->
    exists sent, sent_alone sent d (correct d s) /\ nth_error rs i = Some (clean d (correct d s) (air sent d)).
Proof.
  intros devices ts w L A. unfold trigger_direct, audio_direct. rewrite (proj2 (Nat.eqb_eq _ _) L). cbn [negb].
  revert ts w L A. induction devices as [|d ds IH]; intros [|s ts] w L A; cbn in L; try lia.
  - exists w, []. repeat split. intros [|i] d s H; discriminate.
  - cbn [combine audio_each]. unfold device_direct. rewrite (A 0 d s eq_refl eq_refl). cbn [negb].
    set (w1 := execute S air (upload S w d (correct d s)) [d]).
    assert (D : download S w1 d = Ok (air (fun e => if mem e [d] then uploads (upload S w d (correct d s)) e else None) d)).
    { unfold download, w1. cbn [execute recordings mem existsb]. rewrite Nat.eqb_refl. reflexivity. }
    rewrite D. destruct (IH ts w1 ltac:(lia) (fun i a b => A (Datatypes.S i) a b)) as (w' & rs & E & Lr & T & R). specialize (T true).
    destruct (audio_each S air accepts correct clean (combine ds ts) w1) as [w'' r]. injection T as -> ->.
    exists w', (clean d (correct d s) (air (fun e => if mem e [d] then uploads (upload S w d (correct d s)) e else None) d) :: rs).
    split; [rewrite E; cbn; lia|]. split; [cbn; lia|]. split; [reflexivity|].
    intros [|i] x y Hx Hy; cbn in Hx, Hy; [injection Hx as <-; injection Hy as <-|apply (R i x y Hx Hy)].
    eexists. split; [|reflexivity]. split; [cbn; unfold put; rewrite !Nat.eqb_refl; reflexivity|]. intros e He. cbn. destruct (Nat.eqb_spec e d); [contradiction|reflexivity].
Qed.

(** A refused signal stops the trigger after the earlier devices have transmitted *)
Theorem C134_audio_refused : forall before d after ts s rest w calibrate, length ts = length before -> length rest = length after ->
  (forall i x y, nth_error before i = Some x -> nth_error ts i = Some y -> accepts x y = true) -> accepts d s = false ->
  exists w', trigger_direct S (before ++ d :: after) (audio_direct S air accepts correct clean) (ts ++ s :: rest) None calibrate w = (w', Raise ValueError) /\
  executions w' = length before + executions w.
Proof.
  intros before d after ts s rest w calibrate L Lr A R. unfold trigger_direct, audio_direct. rewrite !app_length. cbn [length]. rewrite L, Lr, Nat.eqb_refl. cbn [negb].
  revert ts w L A. induction before as [|x l IH]; intros [|y ts] w L A; cbn in L; try lia.
  - cbn [app combine audio_each]. unfold device_direct. rewrite R. cbn. eauto.
  - cbn [app combine audio_each]. unfold device_direct at 1. rewrite (A 0 x y eq_refl eq_refl). cbn [negb].
    set (w1 := execute S air (upload S w x (correct x y)) [x]).
    unfold download, w1 at 1. cbn [execute recordings mem existsb]. rewrite Nat.eqb_refl. cbn [orb].
    destruct (IH ts w1 ltac:(lia) (fun i a b => A (Datatypes.S i) a b)) as (w' & T & E).
    rewrite T. exists w'. split; [reflexivity|]. rewrite E. cbn. lia.
Qed.
End Physical.
Print Assumptions C134_drops.
Print Assumptions C134_drops_succeed.
Print Assumptions C134_failed_transmissions.
Print Assumptions C134_failed_receptions.
Print Assumptions C134_numbers_of_signals_refuted.
Print Assumptions C134_numbers_of_states_refuted.
Print Assumptions C134_direct_numbers.
Print Assumptions C134_usrp_direct.
Print Assumptions C134_audio_direct.
Print Assumptions C134_audio_refused.

(** ** Registering devices at USRP systems *)
(** USRP systems cannot be created with devices *)
Theorem C134_usrp_constructor_refuted : forall devices, (exists s, usrp_new (Some devices) = Ok s) <-> devices = [].
Proof. intros [|d l]; split; intro H; try reflexivity; [eexists; reflexivity|destruct H; discriminate|discriminate]. Qed.
Print Assumptions C134_usrp_constructor_refuted.

(** No device is part of a scenario twice, whatever is added, and devices added once in the default mode have their index as name *)
Theorem C134_usrp_devices : (forall l, NoDup (sys_devices (usrp_run l))) /\
  (forall ds, NoDup ds -> usrp_run (map AddUsrp ds) = UsrpSystem ds (combine (seq 0 (length ds)) ds) true).
Proof.
  split; [exact usrp_devices_nodup|]. intros ds. induction ds as [|d l IH] using rev_ind; intro N; [reflexivity|].
  unfold usrp_run in *. rewrite map_app, fold_left_app. cbn [map fold_left]. rewrite IH by (eapply nodup_front; exact N). cbn [usrp_step]. unfold usrp_add, scenario_add. cbn [sys_devices sys_names sys_default].
  assert (Nd : ~ In d l) by (apply NoDup_remove_2 in N; rewrite app_nil_r in N; exact N).
  change (existsb (Nat.eqb d) l) with (mem d l). rewrite (mem_not d l Nd). cbn [negb fst]. rewrite app_length. cbn [length]. rewrite Nat.add_1_r, seq_S. cbn [plus].
  f_equal.
  assert (C : forall (a b : list nat) x y, length a = length b -> combine (a ++ [x]) (b ++ [y]) = combine a b ++ [(x, y)]).
  { induction a as [|u a IHa]; intros [|v b] x y E; cbn in *; try lia; [reflexivity|]. rewrite IHa by lia. reflexivity. }
  rewrite C by apply seq_length. reflexivity.
Qed.
Print Assumptions C134_usrp_devices.

(** A refused device is registered at the controlled system all the same, under the name the next device gets *)
Theorem C134_usrp_names_refuted : forall ds d e, NoDup (ds ++ [e]) -> In d ds ->
  snd (usrp_add (usrp_run (map AddUsrp ds)) d) = Raise ValueError /\
  let s := usrp_run (map AddUsrp (ds ++ [d; e])) in
  sys_devices s = ds ++ [e] /\ In (length ds, d) (sys_names s) /\ In (length ds, e) (sys_names s) /\ d <> e.
Proof.
  intros ds d e N I. assert (N1 : NoDup ds) by (eapply nodup_front; exact N).
  assert (Ne : ~ In e ds) by (apply NoDup_remove_2 in N; rewrite app_nil_r in N; exact N).
  assert (Md : existsb (Nat.eqb d) ds = true) by (apply mem_in; exact I). assert (Me : existsb (Nat.eqb e) ds = false) by (apply mem_not; exact Ne).
  pose proof (proj2 C134_usrp_devices ds N1) as H. split.
  - rewrite H. unfold usrp_add, scenario_add. cbn. rewrite Md. reflexivity.
  - cbv zeta. unfold usrp_run in *. rewrite map_app, fold_left_app, H. cbn [map fold_left usrp_step]. unfold usrp_add, scenario_add. cbn [sys_devices sys_names sys_default]. rewrite Md. cbn [fst sys_devices sys_names sys_default negb]. rewrite Me. cbn [fst sys_devices sys_names].
    split; [reflexivity|]. split; [apply in_or_app; left; apply in_or_app; right; left; reflexivity|]. split; [apply in_or_app; right; left; reflexivity|]. intros ->. contradiction.
Qed.
Print Assumptions C134_usrp_names_refuted.

(** While drops are recorded or replayed the devices stay, but refused devices are registered at the controlled system *)
Theorem C134_usrp_modes : forall l d, let s := usrp_run (l ++ [SetDefault false]) in
  sys_devices s = sys_devices (usrp_run l) /\ sys_devices (fst (usrp_add s d)) = sys_devices s /\
  (~ In d (sys_devices s) -> snd (usrp_add s d) = Raise RuntimeError /\ In (length (sys_devices s), d) (sys_names (fst (usrp_add s d)))).
Proof.
  intros l d s. unfold s, usrp_run. rewrite fold_left_app. cbn [fold_left usrp_step]. set (t := fold_left usrp_step l empty_system). unfold usrp_add, scenario_add. cbn [sys_devices sys_names sys_default negb].
  split; [reflexivity|]. change (existsb (Nat.eqb d) (sys_devices t)) with (mem d (sys_devices t)). split; [destruct (mem d (sys_devices t)); reflexivity|].
  intro N. rewrite (mem_not _ _ N). cbn. split; [reflexivity|]. apply in_or_app. right. left. reflexivity.
Qed.
Print Assumptions C134_usrp_modes.
Example C134_usrp_modes_met : let s := usrp_run [AddUsrp 3; SetDefault false] in sys_devices s = [3] /\ ~ In 4 (sys_devices s).
Proof. cbn. split; [reflexivity|]. intros [H|[]]. discriminate. Qed.

(** Two devices of three in a system, all hearing the sum of what is sent *)
Definition hear (sent : nat -> option nat) (e : nat) : nat := fold_right (fun d x => match sent d with Some s => s + x | None => x end) 0 [1; 2; 3].
Definition idle : world nat := World (fun e => if e =? 3 then Some 100 else None) (fun _ => None) 0.
Example C134_met :
  (exists w, drop nat nat nat nat hear (fun d _ => Ok d) (fun d _ s => Ok (d + s)) (fun _ _ p => Ok (2 * p)) [1; 2] [1; 2; 3] idle = (w, Ok ([1; 2], [(104, 208); (105, 210)])) /\ executions w = 1) /\
  (exists w, drop nat nat nat nat hear (fun d _ => if d =? 2 then Raise ValueError else Ok d) (fun d _ s => Ok (d + s)) (fun _ _ p => Ok (2 * p)) [1; 2] [1; 2; 3] idle = (w, Raise ValueError) /\ uploads w 1 = Some 1 /\ executions w = 0) /\
  (exists w, trigger_direct nat [1; 2] (usrp_direct nat hear [1; 2; 3]) [10; 20] None true idle = (w, Ok [130; 130])) /\
  (exists w, trigger_direct nat [1; 2] (audio_direct nat hear (fun _ _ => true) (fun _ s => 1 + s) (fun _ t r => 3 * r + t)) [10; 20] None false idle = (w, Ok [44; 84])) /\
  receive_devices nat nat nat nat (fun d _ s => Ok (d + s)) (fun _ _ p => Ok p) [1; 2] (Some [Some 5; Some 6; Some 7]) None idle = Ok [(6, 6); (8, 8)] /\
  receive_devices nat nat nat nat (fun d _ s => Ok (d + s)) (fun _ _ p => Ok p) [1; 2] (Some [Some 5]) None idle = Raise ValueError /\
  usrp_run [AddUsrp 3; AddUsrp 3; AddUsrp 4] = UsrpSystem [3; 4] [(0, 3); (1, 3); (1, 4)] true.
Proof. repeat split; try (eexists; repeat split; reflexivity). Qed.
