(** Evaluators of radar detections, with exact arithmetic.
    Models hermespy/radar/evaluators.py: DetectionProbEvaluator (319-409), RocEvaluation.artifact (503-507), RocEvaluationResult (531-646),
    ReceiverOperatingCharacteristic.initialize_result, FromScenarios, FromScenario, FromFile (816-1100), root mean square errors (1107-1243).
    Simplifications: floating point numbers are real numbers; arrays of not-a-number are [None]; cubes are the lists of their powers;
    scenarios are the sequences of their drops' receptions; re-running the detection for the null hypothesis (764-803) is not modelled;
    serialization and visualization are not modelled, except for which numbers are plotted (613-622). *)
From Coq Require Import List Reals Bool Arith.
From Verif Require Import Base Rot_Model.
Import ListNotations.
Open Scope R_scope.

(** ** Detection probability (370-406) *)
(** The cloud is [None] before the first reception and for radars without a detector; its points do not matter here, only their number *)
Definition on_reception (state cloud : option nat) : option nat := cloud.
Definition evaluate_detection (state : option nat) : result bool :=
  match state with None => Raise RuntimeError | Some n => Ok (negb (Nat.leb n 0)) end.

(** ** Operating characteristics *)
(** numpy's max and min *)
Definition maximum (l : list R) : result R := match l with [] => Raise ValueError | x :: r => Ok (fold_left Rmax r x) end.
Definition minimum (l : list R) : result R := match l with [] => Raise ValueError | x :: r => Ok (fold_left Rmin r x) end.
(** (503-507): the values of both hypotheses *)
Definition artifact (cube_h0 cube_h1 : list R) : result (R * R) :=
  do a <- maximum cube_h0; do b <- maximum cube_h1; Ok (a, b).
(** RocEvaluationResult (559-573): the artifacts of every grid section and the number of thresholds *)
Record roc := Roc { sections : nat -> list (R * R); num_thresholds : nat }.
Definition new_roc (thresholds : nat) : roc := Roc (fun _ => []) thresholds.
Definition add_artifact (r : roc) (section : nat) (a : R * R) : roc :=
  Roc (fun j => if Nat.eqb j section then sections r section ++ [a] else sections r j) (num_thresholds r).
(** numpy.linspace with endpoint *)
Definition linspace (a b : R) (n : nat) : list R :=
  map (fun i => if Nat.eqb n 1 then a else a + INR i * ((b - a) / INR (n - 1))) (seq 0 n).
(** numpy.mean of truth values *)
Definition fraction (f : R * R -> bool) (l : list (R * R)) : R := INR (length (filter f l)) / INR (length l).
Definition at_least (t x : R) : bool := if Rle_dec t x then true else false.
(** to_array (625-646): pairs of detection and false alarm probabilities *)
Definition values (l : list (R * R)) : list R := flat_map (fun a => [fst a; snd a]) l.
Definition curve (l : list (R * R)) (n : nat) : option (list (R * R)) :=
  match minimum (values l), maximum (values l) with
  | Ok lo, Ok hi => Some (map (fun t => (fraction (fun a => at_least t (snd a)) l, fraction (fun a => at_least t (fst a)) l)) (linspace lo hi n))
  | _, _ => None
  end.
Definition to_array (r : roc) (section : nat) : option (list (R * R)) := curve (sections r section) (num_thresholds r).
(** _update_visualization (614-622): the indices (None, 1) and (None, 0) select thresholds, not probabilities *)
Definition plotted (points : list (R * R)) : list (R * R) :=
  let p0 := nth 0 points (0, 0) in let p1 := nth 1 points (0, 0) in [(fst p1, fst p0); (snd p1, snd p0)].
(** initialize_result (816-817) of an evaluator with a number of thresholds: the result's default (541) is used *)
Definition initialize_result (evaluator_thresholds : nat) : roc := new_roc 101.
(** FromScenarios (940-956), after the operators have been found: one drop of each scenario at a time *)
Fixpoint collect (r : roc) (h0 h1 : nat -> list R) (from count : nat) : result roc :=
  match count with
  | O => Ok r
  | S k => do a <- artifact (h0 from) (h1 from); collect (add_artifact r 0 a) h0 h1 (S from) k
  end.
Definition from_scenarios (h0 h1 : nat -> list R) (num_drops thresholds : nat) : result roc :=
  if Nat.ltb num_drops 1 then Raise ValueError else collect (new_roc thresholds) h0 h1 0 num_drops.
(** FromFile (1082-1100): the number of drops both campaigns hold, at most the requested number *)
Definition from_file (h0 h1 : list (list R)) (num_drops : option nat) (thresholds : nat) : result roc :=
  let n := Nat.min (length h0) (length h1) in
  let n := match num_drops with None => n | Some m => Nat.min m n end in
  from_scenarios (fun i => nth i h0 []) (fun i => nth i h1 []) n thresholds.
(** FromScenario (1008-1035): the artifacts are computed, but the result is returned without them *)
Definition from_scenario (h0 h1 : list (list R)) (num_drops : nat) : result roc :=
  do a <- mapM (fun p => artifact (fst p) (snd p)) (combine (firstn num_drops h0) (firstn num_drops h1));
  Ok (new_roc 101).

(** ** Root mean square errors *)
(** RootMeanSquareEvaluation.artifact (1156-1163): number of errors and their sum, over all pairs of points and targets *)
Definition square_errors (points truths : list vec) : list R := flat_map (fun p => map (fun t => norm (vsub p t) ^ 2) truths) points.
Definition rms_artifact (points truths : list vec) : nat * R :=
  ((length points * length truths)%nat, fold_left Rplus (square_errors points truths) 0).
(** RootMeanSquareError.evaluate (1235-1239): paths without a target have no truth *)
Definition truths_of (paths : list (option vec)) : list vec := flat_map (fun p => match p with Some v => [v] | None => [] end) paths.
(** RootMeanSquareArtifact.to_scalar (1127-1128) *)
Definition to_scalar (a : nat * R) : result R := if Nat.eqb (fst a) 0 then Raise ZeroDivisionError else Ok (sqrt (snd a / INR (fst a))).
(** RootMeanSquareErrorResult (1190-1212) *)
Definition rms_result := nat -> nat * R.
Definition new_rms : rms_result := fun _ => (0%nat, 0).
Definition add_rms (r : rms_result) (section : nat) (a : nat * R) : rms_result :=
  fun j => if Nat.eqb j section then ((fst (r section) + fst a)%nat, snd (r section) + snd a) else r j.
Definition rms_array (r : rms_result) (section : nat) : option R :=
  if Nat.eqb (fst (r section)) 0 then None else Some (sqrt (snd (r section) / INR (fst (r section)))).
