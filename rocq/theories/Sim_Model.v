(** Simulation campaigns: hermespy/simulation/simulation.py (cited by line as sim), the stages of hermespy/simulation/scenario.py (scn) and hermespy/core/scenario.py (core) it calls,
    hermespy/core/pymonte/actors.py (act) and hermespy/core/pymonte/monte_carlo.py (mc).
    Simplifications: devices are numbered; what devices, channels and operators compute is an argument of the model and may depend on a random draw, one per call;
    triggers are part of the outputs; links keep their channels (added devices use the default channel, scn 219); the loops of the propagation are those of Net_Model, here only the number of rows of its result matters; real numbers are exact. *)
From Coq Require Import String List Arith Bool Reals ZArith.
From Coq Require Import R_Ifp.
From Verif Require Import Base.
Import ListNotations.
Local Open Scope nat_scope.

(** * The runner *)
Section Runner.
Variables W Chan State Trans Out Sig Inp Rec : Type.
(** What the objects of a scenario compute *)
Record physics := mkPhysics {
  p_realize : W -> list Chan;                                         (* scn 358-364 realize_channels *)
  p_state : nat -> R -> State;                                        (* Device.state *)
  p_transmit : nat -> State -> W -> Trans;                            (* core 588-591: transmissions of a device's operators *)
  p_output : nat -> Trans -> option State -> W -> Out;                (* scn 473-476: device.generate_output *)
  p_signals : nat -> list Out -> list State -> list Chan -> Sig;      (* scn 576-611: a row of the propagation matrix *)
  p_process : nat -> Sig -> State -> Out -> W -> Inp;                 (* sim 163-172: device.process_input *)
  p_receive : nat -> Inp -> option State -> W -> Rec }.               (* core 712: device.receive_operators *)
Variable p : physics.
Variable draws : nat -> W.

(** sim 46-67, with the number of devices registered in the scenario, the receptions cached by its operators and the number of draws so far *)
Record runner := mkRunner {
  r_devices : nat; r_channels : option (list Chan); r_states : option (list State); r_trans : option (list Trans);
  r_outs : option (list Out); r_prop : option (list Sig); r_inputs : list Inp; r_recs : list Rec; r_clock : nat }.
Definition new_runner (devices : nat) : runner := mkRunner devices None None None None None [] [] 0.

(** What is done to a runner: its stages, and a device is added to the scenario *)
Inductive op := RealizeChannels | SampleStates (timestamp : R) | TransmitOperators | GenerateOutputs | Propagate | ProcessInputs | ReceiveOperators | AddDevice.

(** zip of the devices with lists stops at the shortest *)
Definition zip2 {A B} (l : list A) (m : list B) : list (A * B) := combine l m.

Definition step (s : runner) (o : op) : runner * option exn :=
  let n := r_devices s in
  let w := draws (r_clock s) in
  let tick := S (r_clock s) in
  match o with
  | AddDevice => (mkRunner (S n) (r_channels s) (r_states s) (r_trans s) (r_outs s) (r_prop s) (r_inputs s) (r_recs s) (r_clock s), None)
  | RealizeChannels =>                                                (* sim 69-70 *)
      (mkRunner n (Some (p_realize p w)) (r_states s) (r_trans s) (r_outs s) (r_prop s) (r_inputs s) (r_recs s) tick, None)
  | SampleStates t =>                                                 (* sim 72-73 *)
      (mkRunner n (r_channels s) (Some (map (fun d => p_state p d t) (seq 0 n))) (r_trans s) (r_outs s) (r_prop s) (r_inputs s) (r_recs s) tick, None)
  | TransmitOperators =>                                              (* sim 75-82, core 587-592 *)
      let states := match r_states s with Some l => l | None => map (fun d => p_state p d 0%R) (seq 0 n) end in
      (mkRunner n (r_channels s) (r_states s) (Some (map (fun q => p_transmit p (fst q) (snd q) w) (zip2 (seq 0 n) states))) (r_outs s) (r_prop s) (r_inputs s) (r_recs s) tick, None)
  | GenerateOutputs =>                                                (* sim 84-92, scn 457-477 *)
      match r_trans s with
      | None => (s, Some TypeError)                                   (* len(None), scn 459 *)
      | Some trans =>
          if negb (length trans =? n) then (s, Some ValueError)
          else
            let states := match r_states s with Some l => map Some l | None => repeat None n end in
            (mkRunner n (r_channels s) (r_states s) (r_trans s)
              (Some (map (fun q => p_output p (fst q) (fst (snd q)) (snd (snd q)) w) (zip2 (seq 0 n) (zip2 trans states)))) (r_prop s) (r_inputs s) (r_recs s) tick, None)
      end
  | Propagate =>                                                      (* sim 94-122, scn 558-611 *)
      match r_states s, r_channels s with
      | Some states, Some channels =>
          match r_outs s with
          | None => (s, Some RuntimeError)
          | Some outs =>
              if negb (length outs =? n) then (s, Some ValueError)
              else (mkRunner n (r_channels s) (r_states s) (r_trans s) (r_outs s) (Some (map (fun d => p_signals p d outs states channels) (seq 0 n))) (r_inputs s) (r_recs s) tick, None)
          end
      | _, _ => (s, Some RuntimeError)
      end
  | ProcessInputs =>                                                  (* sim 124-172 *)
      match r_outs s with
      | None => (s, Some RuntimeError)
      | Some outs =>
          if negb (length outs =? n) then (s, Some RuntimeError)
          else match r_prop s with
               | None => (s, Some RuntimeError)
               | Some prop =>
                   if negb (length prop =? n) then (s, Some RuntimeError)
                   else match r_states s with
                        | None => (mkRunner n (r_channels s) (r_states s) (r_trans s) (r_outs s) (r_prop s) [] (r_recs s) tick, Some TypeError)   (* zip(…, None), sim 160 *)
                        | Some states =>
                            (mkRunner n (r_channels s) (r_states s) (r_trans s) (r_outs s) (r_prop s)
                              (map (fun q => p_process p (fst q) (snd (snd (snd q))) (fst (snd q)) (fst (snd (snd q))) w) (zip2 (seq 0 n) (zip2 states (zip2 outs prop)))) (r_recs s) tick, None)
                        end
               end
      end
  | ReceiveOperators =>                                               (* sim 174-181, core 704-713 *)
      if negb (length (r_inputs s) =? n) then (s, Some ValueError)
      else
        let states := match r_states s with Some l => map Some l | None => repeat None n end in
        (mkRunner n (r_channels s) (r_states s) (r_trans s) (r_outs s) (r_prop s) (r_inputs s)
          (map (fun q => p_receive p (fst q) (fst (snd q)) (snd (snd q)) w) (zip2 (seq 0 n) (zip2 (r_inputs s) states))) tick, None)
  end.

(** A history of calls whose exceptions are caught by the caller, and one that ends with the first exception *)
Fixpoint history (s : runner) (ops : list op) : runner := match ops with [] => s | o :: r => history (fst (step s o)) r end.
Fixpoint sequence (s : runner) (ops : list op) : result runner :=
  match ops with
  | [] => Ok s
  | o :: r => match step s o with (s', None) => sequence s' r | (_, Some e) => Raise e end
  end.
End Runner.

(** * The actor *)
Local Open Scope string_scope.
(** sim 225-235 *)
Definition stage_identifiers : list string :=
  ["realize_channels"; "sample_states"; "transmit_operators"; "generate_outputs"; "propagate"; "process_inputs"; "receive_operators"].
(** sim 237-246: the stages called with the given timestamp; only one stage has a (default) argument, sim 72 *)
Definition stage_executors (timestamp : R) : list op :=
  [RealizeChannels; SampleStates timestamp; TransmitOperators; GenerateOutputs; Propagate; ProcessInputs; ReceiveOperators].
Local Close Scope string_scope.
(** act 289-293, constructor: keys of the stage arguments must be stages *)
Definition actor_accepts (keys : list string) : result unit :=
  if forallb (fun k => existsb (String.eqb k) stage_identifiers) keys then Ok tt else Raise ValueError.
(** act 316-338 for one argument tuple per stage: execution of the stages [start], …, [stop] *)
Definition executed (timestamp : R) (start stop : nat) : list op := firstn (S stop - start) (skipn start (stage_executors timestamp)).
(** sim 220-223: seeds of the actors, drawn from equal copies of the scenario's generator *)
Definition actor_seed (drawn index : nat) : Z := (Z.of_nat drawn + Z.of_nat index * 12345678)%Z.

(** * The campaign *)
(** numpy arange(0, stop, step) for a positive stop: the length is the quotient rounded up, at least one ([None]: an infinite step) *)
Definition ceiling (x : R) : Z := (- Int_part (- x))%Z.
Definition arange (stop : R) (step : option R) : list R :=
  match step with
  | None => [0%R]
  | Some d => map (fun k => (INR k * d)%R) (seq 0 (Z.to_nat (ceiling (stop / d))))
  end.
(** sim 372-377 *)
Definition set_drop_interval (value : R) : result R := if Rle_dec value 0 then Raise ValueError else Ok value.
(** sim 415-432: the announced timestamps and the stage arguments collected from them; [None] if there are no devices.  [simulate] is called without either (432) *)
Definition max_timestamp (ends : list R) : result R := match ends with [] => Raise ValueError | x :: l => Ok (fold_left Rmax l x) end.
Record plan := mkPlan { announced : list R; collected : list (string * list R); passed : list (string * list R) }.
Definition campaign (ends : list R) (interval : option R) : result plan :=
  do m <- max_timestamp ends;
  let timestamps := if Rlt_dec 0 m then arange m interval else [0%R] in
  let stage_arguments := if Rlt_dec 0 (last timestamps 0%R) then [("sample_trajectories"%string, timestamps)] else [] in
  Ok (mkPlan timestamps stage_arguments []).
(** act 332-335: the timestamp a stage is called with, the default 0 (sim 72) unless there are arguments for "sample_states" *)
Definition timestamps_of (arguments : list (string * list R)) : list R :=
  match find (fun q => String.eqb (fst q) "sample_states") arguments with Some (_, l) => l | None => [0%R] end.

(** * Results *)
(** mc 391-395: pages of the table of intermediate results, and 431-439: the sections on a page *)
Definition num_pages (sections : nat) : nat := sections / 8 + 1.
Definition entries_per_page (sections : nat) : nat := sections / num_pages sections + 1.
Definition shown (sections refresh : nat) : list nat :=
  let page := refresh mod num_pages sections in
  filter (fun s => negb ((s <? page * entries_per_page sections) || ((page + 1) * entries_per_page sections <=? s))) (seq 0 sections).
(** mc 81-106: the dictionary that is saved; later assignments to a key replace earlier ones.  Values: *)
Inductive saved := Titles (l : list string) | Abbreviations (l : list string) | Time | Result (index : nat) | Points (dimension : nat).
Section Results.
Variable numeral : nat -> string.   (* str(r) *)
Definition assignments (titles abbreviations : list string) (results : nat) : list (string * saved) :=
  [("dimensions"%string, Titles titles); ("evaluators"%string, Abbreviations abbreviations); ("performance_time"%string, Time)]
  ++ map (fun r => (("result_" ++ numeral r)%string, Result r)) (seq 0 results)
  ++ map (fun r => (("result_" ++ numeral r)%string, Result r)) (seq 0 results)
  ++ map (fun d => (nth d titles ""%string, Points d)) (seq 0 (List.length titles)).
Definition lookup (key : string) (l : list (string * saved)) : option saved :=
  fold_left (fun acc q => if String.eqb (fst q) key then Some (snd q) else acc) l None.
End Results.
