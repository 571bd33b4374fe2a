(** Error vector magnitude.
    Models hermespy/modem/evaluators.py: EVMEvaluation (524-540) with exact real and complex
    arithmetic.  Symbol arrays are given flattened. *)
From Coq Require Import Reals List.
From Coquelicot Require Import Complex.
Import ListNotations.
Open Scope R_scope.

(** |t - r|^2 summed over the pairs of the common beginning (evaluators.py:531-539) *)
Definition squared_errors (t r : list C) : list R :=
  map (fun '(x, y) => Cmod (Cminus x y) ^ 2) (combine t r).
Definition rsum_list (l : list R) : R := fold_right Rplus 0 l.

(** sqrt(mean(...)); the mean of nothing is not a number *)
Definition evm (t r : list C) : option R :=
  match squared_errors t r with
  | [] => None
  | l => Some (sqrt (rsum_list l / INR (length l)))
  end.
