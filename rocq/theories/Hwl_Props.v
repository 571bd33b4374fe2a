(** C116: runs of the hardware loop and its plots. *)
From Coq Require Import List Arith Bool Lia.
From Verif Require Import Base BaseLemmas Hwl_Model Hwl_Spec Hwl_Proofs.
Import ListNotations.

(** Examples: a scenario that counts its drops and fails at every third one; one evaluator *)
Definition counting (bad : nat -> bool) : environment (nat * list nat) nat nat :=
  Env [] [] (fun d p s => ((fst s, firstn d (snd s) ++ p :: skipn (S d) (snd s)), Ok tt))
    (fun s => ((S (fst s), snd s), if bad (fst s) then Raise RuntimeError else Ok tt))
    [fun s => (s, Ok (fst s))] (fun x => Ok x).

(** Both priorities visit every point of the grid once per drop; drops first keeps the drops of a point together, grid first sweeps the grid once per drop *)
Theorem C116_visits : forall p sizes n,
  NoDup (visits p sizes n) /\ (forall section k, In (section, k) (visits p sizes n) <-> section_of sizes section /\ k < n) /\
  exists sections, NoDup sections /\ (forall section, In section sections <-> section_of sizes section) /\
  visits DROPS sizes n = flat_map (fun section => map (fun k => (section, k)) (seq 0 n)) sections /\
  visits GRID sizes n = flat_map (fun k => map (fun section => (section, k)) sections) (seq 0 n).
Proof.
  intros p sizes n. split; [apply NoDup_visits|]. split; [apply in_visits|]. exists (ndindex sizes). split; [apply NoDup_ndindex|].
  split; [intros section; apply in_ndindex|]. split; [apply visits_drops|apply visits_grid].
Qed.
Print Assumptions C116_visits.
Example C116_visits_met : visits DROPS [2; 1] 2 = [([0; 0], 0); ([0; 0], 1); ([1; 0], 0); ([1; 0], 1)] /\ visits GRID [2; 1] 2 = [([0; 0], 0); ([1; 0], 0); ([0; 0], 1); ([1; 0], 1)].
Proof. split; reflexivity. Qed.

(** A run that is neither interrupted nor debugged never raises and attempts everything: every point of the grid gets at most one artifact per drop, in the order of
    the visits, one for every evaluator, and exactly as many as there are drops if nothing is printed *)
Theorem C116_run : forall S E A (env : environment S E A) results record p sizes n s,
  let '(o, recording) := run S E A env results record false p sizes n never always s in
  o_raised o = None /\ recording = false /\ selection (map fst (o_rows o)) (map fst (visits p sizes n)) /\ selection (map fst (o_errors o)) (map fst (visits p sizes n)) /\
  (forall section, section_of sizes section -> entries section (o_rows o) <= n <= entries section (o_rows o) + entries section (o_errors o)) /\
  (forall section e, section_of sizes section -> e < length (evaluate env) -> entries section (o_errors o) = 0 ->
     length (recorded e section (o_rows o)) = n /\ ~ In None (recorded e section (o_rows o))).
Proof.
  intros S E A env results record p sizes n s. unfold run, inner_run. destruct (passes_spec S E A env (visits p sizes n) 0 (Outcome s [] [] None) eq_refl) as [R [Er H]].
  cbv zeta in H. set (o := passes S E A env false never always 0 (visits p sizes n) (Outcome s [] [] None)) in *. cbn [o_rows o_errors app] in H.
  destruct H as [H1 [H2 [H3 [H4 [H5 H6]]]]]. cbv zeta. rewrite H3. split; [reflexivity|]. split; [reflexivity|]. rewrite H1, H2. split; [exact H4|]. split; [exact H5|].
  assert (Hsel : forall (T U : Type) sec (a : list (list nat * T)) (b : list (list nat * U)), selection (map fst a) (map fst b) -> entries sec a <= entries sec b).
  { intros T U sec a b Hs. remember (map fst a) as a' eqn:Ea. remember (map fst b) as b' eqn:Eb. revert a b Ea Eb. unfold entries.
    induction Hs as [|x l m Hs IH|x l m Hs IH]; intros a b Ea Eb.
    - destruct a; [cbn; lia|discriminate].
    - destruct a as [|y a]; [discriminate|]. destruct b as [|z b]; [discriminate|]. cbn [map] in Ea, Eb. injection Ea as E1 E2. injection Eb as E3 E4. specialize (IH a b E2 E4).
      cbn [filter]. rewrite <- E1, <- E3. destruct (same_section x sec); cbn [length]; lia.
    - destruct b as [|z b]; [discriminate|]. cbn [map] in Eb. injection Eb as E3 E4. specialize (IH a b Ea E4). cbn [filter]. destruct (same_section (fst z) sec); cbn [length]; lia. }
  split.
  - intros sec Hsec. pose proof (Hsel _ _ sec R (visits p sizes n) H4) as K. specialize (H6 sec). rewrite (entries_visits p sizes n sec Hsec) in *. lia.
  - intros sec e Hsec He Hz. pose proof (Hsel _ _ sec R (visits p sizes n) H4) as K. specialize (H6 sec). rewrite (entries_visits p sizes n sec Hsec) in *. unfold recorded.
    split; [rewrite map_length; unfold entries in *; lia|]. intros Hin. apply in_map_iff in Hin. destruct Hin as [r [En Hr]]. apply filter_In in Hr. destruct Hr as [Hr _].
    apply nth_error_None in En. assert (L : length (snd r) = length (evaluate env)); [|lia].
    apply (passes_rows S E A env (fun _ a => length a = length (evaluate env)) (sample_length S E A env) false never always (visits p sizes n) 0 (Outcome s [] [] None)); [intros r' []|].
    fold o. rewrite H1. exact Hr.
Qed.
Print Assumptions C116_run.
Example C116_run_met : let '(o, _) := run _ _ _ (counting (fun k => k =? 2)) true true false GRID [2] 2 never always (0, [0]) in
  o_rows o = [([0], [1]); ([1], [2]); ([1], [4])] /\ o_errors o = [([0], RuntimeError)].
Proof. vm_compute. split; reflexivity. Qed.
(** Nothing is printed if no hook, dimension, drop or evaluator raises *)
Theorem C116_complete : forall S E A (env : environment S E A) results record p sizes n s,
  List.Forall succeeds (pre_hooks env) -> (forall a, List.Forall (fun h => succeeds (h a)) (post_hooks env)) -> (forall d i, succeeds (configure env d i)) ->
  succeeds (drop env) -> List.Forall succeeds (evaluate env) -> (forall x, exists a, artifact env x = Ok a) ->
  let o := fst (run S E A env results record false p sizes n never always s) in
  o_errors o = [] /\ forall section e, section_of sizes section -> e < length (evaluate env) -> length (recorded e section (o_rows o)) = n /\ ~ In None (recorded e section (o_rows o)).
Proof.
  intros S E A env results record p sizes n s H1 H2 H3 H4 H5 H6 o.
  assert (He : o_errors o = []) by (apply (passes_ok S E A env); [repeat split; assumption|reflexivity]). split; [exact He|]. intros sec e Hs Hlt.
  pose proof (C116_run S E A env results record p sizes n s) as R. destruct (run S E A env results record false p sizes n never always s) as [o' rec]. subst o. cbn [fst] in *.
  destruct R as [_ [_ [_ [_ [_ R]]]]]. apply R; [exact Hs|exact Hlt|rewrite He; reflexivity].
Qed.
Print Assumptions C116_complete.
Example C116_complete_met : let env := counting (fun _ => false) in (forall d i, succeeds (configure env d i)) /\ succeeds (drop env) /\ List.Forall succeeds (evaluate env).
Proof.
  cbv zeta. split; [intros d i s; eexists; eexists; reflexivity|]. split; [intros s; eexists; exists tt; reflexivity|].
  constructor; [intros s; eexists; eexists; reflexivity|constructor].
Qed.

(** Artifacts are recorded at the point that was configured when their drop was generated, whatever hooks do, and also in runs with errors, interruptions or debugging *)
Theorem C116_origin : forall S E A (env : environment S E A) (point dropped : S -> nat -> nat) (origin : A -> nat -> nat),
  (forall d i s s', configure env d i s = (s', Ok tt) -> point s' d = i /\ forall d', d' <> d -> point s' d' = point s d') ->
  (forall s s', drop env s = (s', Ok tt) -> forall d, dropped s' d = point s d) ->
  (forall f, In f (evaluate env) -> forall s s' r, f s = (s', r) -> (forall d, dropped s' d = dropped s d) /\
     forall x a, r = Ok x -> artifact env x = Ok a -> forall d, origin a d = dropped s d) ->
  forall results record debug p sizes n interrupted confirmed s section artifacts,
  In (section, artifacts) (o_rows (fst (run S E A env results record debug p sizes n interrupted confirmed s))) ->
  forall a, In a artifacts -> forall d, d < length section -> origin a d = nth d section 0.
Proof.
  intros S E A env point dropped origin Hc Hd He results record debug p sizes n int conf s sec arts Hin a Ha.
  pose proof (passes_rows S E A env (fun sec l => List.Forall (fun a => forall d, d < length sec -> origin a d = nth d sec 0) l)
    (sample_origin S E A env point dropped origin Hc Hd He) debug int conf (visits p sizes n) 0 (Outcome s [] [] None) ltac:(intros r []) (sec, arts) Hin) as K.
  cbn [fst snd] in K. rewrite Forall_forall in K. apply K. exact Ha.
Qed.
Print Assumptions C116_origin.
(** A scenario whose state is its configured points and those of its last drop *)
Example C116_origin_met : let env : environment ((nat -> nat) * (nat -> nat)) (nat -> nat) (nat -> nat) :=
    Env [] [] (fun d i s => ((fun d' => if d' =? d then i else fst s d', snd s), Ok tt)) (fun s => ((fst s, fst s), Ok tt)) [fun s => (s, Ok (snd s))] (fun x => Ok x) in
  (forall d i s s', configure env d i s = (s', Ok tt) -> fst s' d = i /\ forall d', d' <> d -> fst s' d' = fst s d') /\
  (forall s s', drop env s = (s', Ok tt) -> forall d, snd s' d = fst s d) /\
  (forall f, In f (evaluate env) -> forall s s' r, f s = (s', r) -> (forall d, snd s' d = snd s d) /\ forall x a, r = Ok x -> artifact env x = Ok a -> forall d, a d = snd s d) /\
  map fst (o_rows (fst (run _ _ _ env false false false DROPS [2; 2] 1 never always (fun _ => 7, fun _ => 7)))) = [[0; 0]; [0; 1]; [1; 0]; [1; 1]].
Proof.
  cbv zeta. cbn [configure drop evaluate artifact]. split; [|split; [|split]].
  - intros d i s s' H. injection H as <-. cbn [fst]. split; [rewrite Nat.eqb_refl; reflexivity|]. intros d' Hd. apply Nat.eqb_neq in Hd. rewrite Hd. reflexivity.
  - intros s s' H d. injection H as <-. reflexivity.
  - intros f [<-|[]] s s' r H. injection H as <- <-. split; [reflexivity|]. intros x a Hx Ha d. congruence.
  - reflexivity.
Qed.

(** Interrupting a run, or declining a trigger, before pass j leaves what the first j passes did, and recording is stopped *)
Theorem C116_interrupted : forall S E A (env : environment S E A) results record debug p sizes n interrupted confirmed s j,
  interrupted j = true \/ confirmed j = false -> (forall i, i < j -> interrupted i = false /\ confirmed i = true) ->
  let '(o, recording) := run S E A env results record debug p sizes n interrupted confirmed s in
  o = passes S E A env debug never always 0 (firstn j (visits p sizes n)) (Outcome s [] [] None) /\
  (debug = false -> o_raised o = None /\ recording = false).
Proof.
  intros S E A env results record debug p sizes n int conf s j Hj Hi. unfold run, inner_run.
  rewrite (passes_prefix S E A env debug int conf j Hj (visits p sizes n) 0) by (try lia; intros i Hi'; apply Hi; lia). rewrite Nat.sub_0_r.
  split; [reflexivity|]. intros ->. destruct (passes_spec S E A env (firstn j (visits p sizes n)) 0 (Outcome s [] [] None) eq_refl) as [R [Er H]]. cbv zeta in H.
  destruct H as [_ [_ [H _]]]. rewrite H. split; reflexivity.
Qed.
Print Assumptions C116_interrupted.
Example C116_interrupted_met : let '(o, rec) := run _ _ _ (counting (fun _ => false)) true true false DROPS [2] 3 (fun k => 2 <=? k) always (0, [0]) in
  o_rows o = [([0], [1]); ([0], [2])] /\ rec = false.
Proof. vm_compute. split; reflexivity. Qed.

(** In debug mode the first exception ends the run after the passes before it … *)
Theorem C116_debug : forall S E A (env : environment S E A) results record p sizes n s,
  let '(o, recording) := run S E A env results record true p sizes n never always s in
  match o_raised o with
  | None => o = fst (run S E A env results record false p sizes n never always s) /\ o_errors o = [] /\ recording = false
  | Some e => exists before section k after o1 a, visits p sizes n = before ++ (section, k) :: after /\
      o1 = passes S E A env false never always 0 before (Outcome s [] [] None) /\ o_errors o1 = [] /\
      one_pass S E A env section (o_state o1) = (o_state o, a, Some e) /\ o_rows o = o_rows o1 ++ match a with Some x => [(section, x)] | None => [] end /\
      recording = results && record
  end.
Proof.
  intros S E A env results record p sizes n s. unfold run, inner_run. pose proof (passes_debug S E A env (visits p sizes n) 0 (Outcome s [] [] None) eq_refl) as D. cbv zeta in D.
  cbn [fst]. destruct (o_raised (passes S E A env true never always 0 (visits p sizes n) (Outcome s [] [] None))) as [e|].
  - destruct D as [b [sec [k [af [o1 [a [D1 [D2 [D3 [D4 D5]]]]]]]]]]. exists b, sec, k, af, o1, a. repeat (split; [assumption|]). reflexivity.
  - destruct D as [D1 D2]. split; [exact D1|]. split; [exact D2|reflexivity].
Qed.
Print Assumptions C116_debug.
(** … and leaves the scenario recording *)
Theorem C116_debug_recording_refuted : exists (env : environment (nat * list nat) nat nat) sizes n s,
  let '(o, recording) := run _ _ _ env true true true DROPS sizes n never always s in o_raised o = Some RuntimeError /\ recording = true.
Proof. exists (counting (fun k => k =? 2)), [2], 2, (0, [0]). vm_compute. split; reflexivity. Qed.
Print Assumptions C116_debug_recording_refuted.

(** Dimensions are registered once; one without objects is never created although the scenario is documented to be its object *)
Theorem C116_dimensions : forall dims d o objects,
  new_dimension dims d (o :: objects) = (if existsb (Nat.eqb d) dims then (dims, Raise ValueError) else (dims ++ [d], Ok tt)) /\
  (NoDup dims -> NoDup (fst (new_dimension dims d (o :: objects)))).
Proof.
  intros dims d o objects. split; [reflexivity|]. intros H. cbn [new_dimension]. unfold add_dimension. destruct (existsb (Nat.eqb d) dims) eqn:Ex; cbn [fst]; [exact H|].
  assert (Hd : ~ In d dims) by (intros Hin; assert (existsb (Nat.eqb d) dims = true) by (apply existsb_exists; exists d; split; [exact Hin|apply Nat.eqb_refl]); congruence).
  apply NoDup_rev in H. rewrite <- (rev_involutive (dims ++ [d])). apply NoDup_rev. rewrite rev_app_distr. cbn [rev app]. constructor; [|exact H]. rewrite <- in_rev. exact Hd.
Qed.
Print Assumptions C116_dimensions.
Theorem C116_scenario_dimension_refuted : forall dims d, new_dimension dims d [] = (dims, Raise AttributeError).
Proof. reflexivity. Qed.
Print Assumptions C116_scenario_dimension_refuted.

(** The stand-in recorded for a scenario that cannot be serialized has its carriers but none of its operators; the devices keep theirs *)
Theorem C116_stand_in_refuted : forall ds, let '(recorded, kept) := stand_in ds in
  kept = ds /\ map carrier recorded = map carrier ds /\ List.Forall (fun d => transmitters d = [] /\ receivers d = []) recorded.
Proof.
  intros ds. unfold stand_in. split; [|split].
  - induction ds as [|[c t r] ds IH]; [reflexivity|]. cbn [map carrier transmitters receivers]. rewrite !fold_add_known by apply incl_refl. f_equal. exact IH.
  - rewrite map_map. reflexivity.
  - apply Forall_map. apply Forall_forall. intros d _. split; reflexivity.
Qed.
Print Assumptions C116_stand_in_refuted.

(** ** Plots *)
(** Under every schedule a plot shows samples in the order they were generated, never an older one after a newer one; nothing stands for "no sample yet" *)
Theorem C116_plots_ordered : forall X (xs : list X) h, exists ix, ascending ix /\ List.Forall (fun i => i <= length xs) ix /\
  t_plotted (schedule h (start xs)) = map (nth_sample xs) ix.
Proof.
  intros X xs h. destruct (schedule_invariant xs h (start xs) 0 [] (start_invariant xs)) as [n [ix [k [H _]]]]. exists ix. unfold invariant in H.
  destruct H as [H1 [_ [_ [_ [_ [H6 [H7 [H8 _]]]]]]]]. split; [exact H7|]. split; [eapply Forall_impl; [|exact H8]; intros i Hi; cbv beta in *; lia|exact H6].
Qed.
Print Assumptions C116_plots_ordered.
(** A plot that has been waiting for samples ends with the last sample of the run *)
Theorem C116_last_plotted : forall X (xs : list X) h1 h2 b, t_place (schedule h1 (start xs)) = Waiting b -> t_place (schedule (h1 ++ h2) (start xs)) = Finished ->
  exists l, t_plotted (schedule (h1 ++ h2) (start xs)) = l ++ [last (map Some xs) None].
Proof.
  intros X xs h1 h2 b Hw Hf. destruct (schedule_invariant xs (h1 ++ h2) (start xs) 0 [] (start_invariant xs)) as [n [ix [k [H _]]]].
  assert (Hen : engaged (schedule (h1 ++ h2) (start xs))).
  { unfold schedule. rewrite fold_left_app. apply (engaged_schedule h2). unfold schedule in Hw. unfold engaged. rewrite Hw. exact I. }
  set (t := schedule (h1 ++ h2) (start xs)) in *. unfold engaged in Hen. rewrite Hf in Hen. unfold invariant in H. rewrite Hf in H.
  destruct H as [H1 [H2 [H3 [H4 [H5 [H6 [H7 [H8 [[Ha H9] _]]]]]]]]]. rewrite H4 in Ha. specialize (H3 Ha).
  destruct H9 as [->|H9]; [rewrite H6 in Hen; exfalso; apply Hen; reflexivity|].
  destruct (exists_last (l := ix)) as [ix' [i Ei]]; [intros ->; rewrite H6 in Hen; apply Hen; reflexivity|]. rewrite Ei, last_snoc in H9. subst i. rewrite H6, Ei, map_app. cbn [map].
  exists (map (nth_sample xs) ix'). do 2 f_equal. subst n. clear. induction xs as [|x xs IH] using rev_ind; [reflexivity|]. rewrite app_length, map_app. cbn [length map].
  rewrite last_last, Nat.add_1_r. cbn [nth_sample]. rewrite nth_error_app2, Nat.sub_diag by lia. reflexivity.
Qed.
Print Assumptions C116_last_plotted.
Example C116_last_plotted_met :
  let p := (Plotter, true) in let m := (Main, true) in
  t_place (schedule [p; p] (start [1; 2])) = Waiting false /\ t_place (schedule ([p; p] ++ [m; m; p; p; m; p; m; m; p; p; p; p; p; m]) (start [1; 2])) = Finished /\
  t_plotted (schedule ([p; p] ++ [m; m; p; p; m; p; m; m; p; p; p; p; p; m]) (start [1; 2])) = [Some 1; Some 2].
Proof. vm_compute. repeat split; reflexivity. Qed.
(** Threads never block each other for good, and a stopped plot ends by itself *)
Theorem C116_no_deadlock : forall X (xs : list X) h, let t := schedule h (start xs) in
  (t_main t = Joined /\ t_place t = Finished \/ exists w t', step w true t = Some t' /\ t' <> t) /\
  (t_main t = Stopped -> t_place (schedule (repeat (Plotter, true) 6) t) = Finished).
Proof.
  intros X xs h t. destruct (schedule_invariant xs h (start xs) 0 [] (start_invariant xs)) as [n [ix [k [H _]]]]. fold t in H. unfold invariant in H.
  destruct t as [p m s a l]. cbn [t_place t_main t_sample t_alive t_plotted] in *. destruct H as [H1 [H2 [H3 [H4 [H5 [H6 [H7 [H8 [H9 [H10 H11]]]]]]]]]]. split.
  - destruct m as [[|x r]|r| |].
    + right. exists Main, (Threads p Stopped s false l). split; [reflexivity|]. intros E. congruence.
    + right. exists Main, (Threads p (Notifying r) (Some x) a l). split; [reflexivity|]. intros E. congruence.
    + right. destruct (holds_condition p) eqn:Eh.
      * exists Plotter. destruct p; try discriminate; cbn [step]; eexists; (split; [reflexivity|]); intros E; [destruct a|]; congruence.
      * exists Main. cbn [step]. rewrite Eh. eexists. split; [reflexivity|]. intros E. congruence.
    + cbn [feeding] in H4. subst a. right. destruct p as [| |b'| | |].
      * exists Plotter. cbn [step]. eexists. split; [reflexivity|]. intros E. congruence.
      * exists Plotter. cbn [step]. eexists. split; [reflexivity|]. intros E. congruence.
      * exists Plotter. destruct b'; cbn [step]; eexists; (split; [reflexivity|]); intros E; congruence.
      * exists Plotter. cbn [step]. eexists. split; [reflexivity|]. intros E. congruence.
      * exists Plotter. cbn [step]. eexists. split; [reflexivity|]. intros E. congruence.
      * exists Main. cbn [step]. eexists. split; [reflexivity|]. intros E. congruence.
    + left. split; [reflexivity|]. apply H11. reflexivity.
  - intros ->. cbn [feeding] in H4. subst a. destruct p as [| |b'| | |]; [| |destruct b'| | |]; reflexivity.
Qed.
Print Assumptions C116_no_deadlock.
(** Samples may be skipped; a run that ends before the figures are ready plots nothing; one that generates no sample hands the plot nothing instead of a sample *)
Theorem C116_every_sample_refuted : exists h, let t := schedule h (start [1; 2]) in t_main t = Joined /\ t_plotted t = [Some 2].
Proof. exists (map (fun w => (w, true)) [Plotter; Plotter; Main; Main; Main; Main; Main; Plotter; Plotter; Plotter; Plotter; Main]). vm_compute. split; reflexivity. Qed.
Print Assumptions C116_every_sample_refuted.
Theorem C116_unplotted_refuted : forall X (xs : list X), exists h, let t := schedule h (start xs) in t_main t = Joined /\ t_plotted t = [].
Proof.
  intros X xs.
  assert (K : forall (l : list X) s, exists h, schedule h (Threads Preparing (Feeding l) s true []) = Threads Preparing Stopped (fold_left (fun _ x => Some x) l s) false []).
  { induction l as [|x l IH]; intros s; [exists [(Main, true)]; reflexivity|]. destruct (IH (Some x)) as [h Hh]. exists ((Main, true) :: (Main, true) :: h). exact Hh. }
  destruct (K xs None) as [h Hh]. exists (h ++ map (fun w => (w, true)) [Plotter; Plotter; Plotter; Main]). unfold schedule, start in *. rewrite fold_left_app, Hh. split; reflexivity.
Qed.
Print Assumptions C116_unplotted_refuted.
Theorem C116_nothing_plotted_refuted : forall X h1 h2 b, t_place (schedule h1 (start (@nil X))) = Waiting b -> t_place (schedule (h1 ++ h2) (start (@nil X))) = Finished ->
  exists l, t_plotted (schedule (h1 ++ h2) (start (@nil X))) = l ++ [None].
Proof. intros X h1 h2 b Hw Hf. exact (C116_last_plotted X [] h1 h2 b Hw Hf). Qed.
Print Assumptions C116_nothing_plotted_refuted.
