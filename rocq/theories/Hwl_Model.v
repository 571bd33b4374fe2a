(** Runs of the hardware loop: hermespy/hardware_loop/hardware_loop.py.
    Simplifications: the scenario, the hooks and the evaluators are arguments of the model; console output other than printed exceptions, progress bars,
    result files and figures are not modelled; [add_artifact] is the appending of a row to the log of results. *)
From Coq Require Import List Arith Bool.
From Verif Require Import Base.
Import ListNotations.

(** np.ndindex: all tuples of indices below a shape, the last index fastest (940) *)
Fixpoint ndindex (shape : list nat) : list (list nat) :=
  match shape with
  | [] => [[]]
  | n :: sh => flat_map (fun i => map (cons i) (ndindex sh)) (seq 0 n)
  end.
(** IterationPriority (57-65) *)
Inductive priority := DROPS | GRID.
(** 924-946: section and sample index of every pass of the loop *)
Definition visits (p : priority) (sizes : list nat) (drops : nat) : list (list nat * nat) :=
  match p with
  | GRID => map (fun i => (firstn (length sizes) (skipn 1 i), nth 0 i 0)) (ndindex (drops :: sizes))
  | DROPS => map (fun i => (firstn (length sizes) i, nth (length sizes) i 0)) (ndindex (sizes ++ [drops]))
  end.

Section Loop.
Variables S E A : Type.
(** What a run calls: hooks (961-962, 993-994; the latter are handed the artifacts of the sample), dimensions (829-830), the scenario's drop (833), evaluators (836)
    and their artifacts (837) *)
Record environment := Env {
  pre_hooks : list (S -> S * result unit);
  post_hooks : list (list A -> S -> S * result unit);
  configure : nat -> nat -> S -> S * result unit;
  drop : S -> S * result unit;
  evaluate : list (S -> S * result E);
  artifact : E -> result A }.
Variable env : environment.

(** Statements one after the other, up to the first that raises *)
Fixpoint run_all (l : list (S -> S * result unit)) (s : S) : S * result unit :=
  match l with
  | [] => (s, Ok tt)
  | f :: l' => match f s with (s', Ok _) => run_all l' s' | (s', Raise e) => (s', Raise e) end
  end.
Fixpoint evaluate_all (l : list (S -> S * result E)) (s : S) : S * result (list E) :=
  match l with
  | [] => (s, Ok [])
  | f :: l' => match f s with
               | (s', Ok x) => let '(s'', r) := evaluate_all l' s' in (s'', do xs <- r; Ok (x :: xs))
               | (s', Raise e) => (s', Raise e)
               end
  end.
Fixpoint settings (d : nat) (section : list nat) : list (S -> S * result unit) :=
  match section with [] => [] | p :: l => configure env d p :: settings (Datatypes.S d) l end.
(** 812-840 [__generate_sample] *)
Definition generate_sample (section : list nat) (s : S) : S * result (list A) :=
  match run_all (settings 0 section ++ [drop env]) s with
  | (s1, Raise e) => (s1, Raise e)
  | (s1, Ok _) => let '(s2, r) := evaluate_all (evaluate env) s1 in (s2, do es <- r; mapM (artifact env) es)
  end.
(** What remains of a run: the scenario, the rows added to the results (section and one artifact per evaluator) and the exceptions that were printed *)
Record outcome := Outcome { o_state : S; o_rows : list (list nat * list A); o_errors : list (list nat * exn); o_raised : option exn }.
(** 959-994: one pass *)
Definition one_pass (section : list nat) (s : S) : S * option (list A) * option exn :=
  match run_all (pre_hooks env) s with
  | (s1, Raise e) => (s1, None, Some e)
  | (s1, Ok _) =>
    match generate_sample section s1 with
    | (s2, Raise e) => (s2, None, Some e)
    | (s2, Ok a) => match run_all (map (fun h => h a) (post_hooks env)) s2 with
                    | (s3, Raise e) => (s3, Some a, Some e)
                    | (s3, Ok _) => (s3, Some a, None)
                    end
    end
  end.
(** 940-1006, with executable.py 309-342 [_handle_exception]: [debug] re-raises; [interrupted k] and [confirmed k] are what line 942 reads and line 953 is answered
    before the pass number k *)
Fixpoint passes (debug : bool) (interrupted confirmed : nat -> bool) (k : nat) (l : list (list nat * nat)) (o : outcome) : outcome :=
  match l with
  | [] => o
  | (section, _) :: l' =>
    if interrupted k then o
    else if negb (confirmed k) then o
    else
      let '(s, a, e) := one_pass section (o_state o) in
      let rows := match a with Some x => o_rows o ++ [(section, x)] | None => o_rows o end in
      match e with
      | None => passes debug interrupted confirmed (Datatypes.S k) l' (Outcome s rows (o_errors o) None)
      | Some x => if debug then Outcome s rows (o_errors o) (Some x)
                  else passes debug interrupted confirmed (Datatypes.S k) l' (Outcome s rows (o_errors o ++ [(section, x)]) None)
      end
  end.
(** 851-1009 [__run]; without manual triggering every pass is confirmed (950) *)
Definition inner_run (debug : bool) (p : priority) (sizes : list nat) (drops : nat) (interrupted confirmed : nat -> bool) (s : S) : outcome :=
  passes debug interrupted confirmed 0 (visits p sizes drops) (Outcome s [] [] None).
(** 705-792 [run]: recording starts with a results directory (727-758) and ends unless an exception leaves [__run] (768-771) *)
Definition run (results_dir record_drops debug : bool) (p : priority) (sizes : list nat) (drops : nat) (interrupted confirmed : nat -> bool) (s : S) : outcome * bool :=
  let o := inner_run debug p sizes drops interrupted confirmed s in
  (o, match o_raised o with Some _ => results_dir && record_drops | None => false end).
End Loop.
Arguments Env {S E A}. Arguments pre_hooks {S E A}. Arguments post_hooks {S E A}. Arguments configure {S E A}. Arguments drop {S E A}. Arguments evaluate {S E A}.
Arguments artifact {S E A}. Arguments Outcome {S A}. Arguments o_state {S A}. Arguments o_rows {S A}. Arguments o_errors {S A}. Arguments o_raised {S A}.

(** 533-584: dimensions by name; without objects [new_dimension] reads an attribute that does not exist (561: the name is mangled to _HardwareLoop__scenario, the
    attribute is called _Pipeline__scenario, core/pipeline.py 39) *)
Definition add_dimension (dims : list nat) (d : nat) : list nat * result unit :=
  if existsb (Nat.eqb d) dims then (dims, Raise ValueError) else (dims ++ [d], Ok tt).
Definition new_dimension (dims : list nat) (d : nat) (objects : list nat) : list nat * result unit :=
  match objects with [] => (dims, Raise AttributeError) | _ => add_dimension dims d end.

(** 733-751: the stand-in recorded for scenarios that cannot be serialized; operators are added to the device they belong to already (741-744; core/device.py 816-817) *)
Record device := Device { carrier : nat; transmitters : list nat; receivers : list nat }.
Definition add_operator (l : list nat) (o : nat) : list nat := if existsb (Nat.eqb o) l then l else l ++ [o].
Definition stand_in (ds : list device) : list device * list device :=
  (map (fun d => Device (carrier d) [] []) ds,
   map (fun d => Device (carrier d) (fold_left add_operator (transmitters d) (transmitters d)) (fold_left add_operator (receivers d) (receivers d))) ds).

(** * Plot threads (327-418) and their manager (421-463) *)
Section Plots.
Variable X : Type.
(** Program counter of the plot thread: preparing figures (372-385), at the head of the loop (389), waiting (390) – notified or not –, about to plot (393),
    closing (400-401), done.  It holds the condition (387) at the head of the loop and while plotting, and the sample lock while plotting, which is
    one step and raises nothing *)
Inductive place := Preparing | Head | Waiting (notified : bool) | Plotting | Closing | Finished.
(** Program counter of the main thread: samples still to be handed over (988-990), possibly between setting the sample (411-412) and notifying (414-415),
    then stopping (456-457) and joining (460-461) *)
Inductive main := Feeding (l : list X) | Notifying (l : list X) | Stopped | Joined.
Record threads := Threads { t_place : place; t_main : main; t_sample : option X; t_alive : bool; t_plotted : list (option X) }.
Definition start (l : list X) : threads := Threads Preparing (Feeding l) None true [].
Inductive who := Plotter | Main.
(** One step of a thread; [None] if it is blocked or has ended.  A waiting plotter may also return after a second without a notification, [timeout] *)
Definition holds_condition (p : place) : bool := match p with Head | Plotting => true | _ => false end.
Definition step (w : who) (timeout : bool) (t : threads) : option threads :=
  let '(Threads p m s a l) := t in
  match w with
  | Plotter =>
    match p with
    | Preparing => Some (Threads Head m s a l)
    | Head => Some (Threads (if a then Waiting false else Closing) m s a l)
    | Waiting true => Some (Threads Plotting m s a l)
    | Waiting false => if timeout then Some (Threads (if a then Waiting false else Plotting) m s a l) else None
    | Plotting => Some (Threads Head m s a (l ++ [s]))
    | Closing => Some (Threads Finished m s a l)
    | Finished => None
    end
  | Main =>
    match m with
    | Feeding [] => Some (Threads p Stopped s false l)
    | Feeding (x :: xs) => Some (Threads p (Notifying xs) (Some x) a l)
    | Notifying xs => if holds_condition p then None else Some (Threads (match p with Waiting _ => Waiting true | q => q end) (Feeding xs) s a l)
    | Stopped => match p with Finished => Some (Threads p Joined s a l) | _ => None end
    | Joined => None
    end
  end.
(** A schedule: steps of blocked threads have no effect *)
Definition schedule (h : list (who * bool)) (t : threads) : threads :=
  fold_left (fun t w => match step (fst w) (snd w) t with Some t' => t' | None => t end) h t.
End Plots.
Arguments Feeding {X}. Arguments Notifying {X}. Arguments Stopped {X}. Arguments Joined {X}. Arguments Threads {X}. Arguments start {X}. Arguments step {X}. Arguments schedule {X}.
Arguments t_place {X}. Arguments t_main {X}. Arguments t_sample {X}. Arguments t_alive {X}. Arguments t_plotted {X}.
