(** Statistics vocabulary. *)
From Coq Require Import List Arith Bool Reals.
From Verif Require Import Base Monte_Model.
Import ListNotations.
Open Scope R_scope.

Definition Rsum (l : list R) : R := fold_right Rplus 0 l.
Definition mean (l : list R) : R := Rsum l / INR (length l).
(** Unbiased sample variance. *)
Definition variance (l : list R) : R :=
  Rsum (map (fun x => (x - mean l) ^ 2) l) / (INR (length l) - 1).

(** The scalars collected for section [c], in order. *)
Fixpoint scalars_of (c : coord) (hist : list (coord * option R)) : list R :=
  match hist with
  | [] => []
  | (d, Some x) :: t => if coord_eqb d c then x :: scalars_of c t else scalars_of c t
  | (_, None) :: t => scalars_of c t
  end.

(** What the documentation of the stopping criterion asks for: enough samples, and
    the (normal) probability of missing the mean by more than the tolerance below
    the threshold. *)
Definition stop_rule (cdf : R -> R) (tol delta : R) (min_num : nat) (l : list R) : Prop :=
  (length l <> 0 /\ Nat.modulo (length l) min_num = 0)%nat /\
  0 < variance l /\
  2 * (1 - cdf (sqrt (INR (length l)) * tol / sqrt (variance l))) < delta.

(** The artifacts evaluator number [e] contributed to a list of samples. *)
Definition evaluator_history (e : nat) (samples : list (coord * list (option R))) : list (coord * option R) :=
  map (fun p => (fst p, nth e (snd p) None)) samples.
