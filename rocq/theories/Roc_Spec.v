(** Vocabulary for evaluators of radar detections. *)
From Coq Require Import List Reals Bool Arith.
From Verif Require Import Base Rot_Model Roc_Model.
Import ListNotations.
Open Scope R_scope.

(** The largest of some powers *)
Definition is_largest (l : list R) (m : R) : Prop := In m l /\ forall x, In x l -> x <= m.
Definition is_smallest (l : list R) (m : R) : Prop := In m l /\ forall x, In x l -> m <= x.
(** How many drops reach a threshold; [hypothesis] selects the values *)
Fixpoint reaching {A} (value : A -> R) (t : R) (l : list A) : nat :=
  match l with [] => O | a :: r => (if Rle_dec t (value a) then 1 else 0) + reaching value t r end%nat.
(** All values of some drops under both hypotheses *)
Definition all_values (l : list (R * R)) : list R := map fst l ++ map snd l.
(** What was added for a section *)
Definition of_section {A} (s : nat) (l : list (nat * A)) : list A := map snd (filter (fun p => Nat.eqb s (fst p)) l).
(** Sum over all pairs *)
Fixpoint rsum {A} (f : A -> R) (l : list A) : R := match l with [] => 0 | a :: r => f a + rsum f r end.
Definition decreasing (l : list R) : Prop := forall i j, (i <= j < length l)%nat -> nth j l 0 <= nth i l 0.
(** The i-th of n thresholds from lo to hi, in equal steps *)
Definition threshold (lo hi : R) (n i : nat) : R := if Nat.eqb n 1 then lo else lo + INR i * ((hi - lo) / INR (n - 1)).
(** The root mean square result after the detections and targets of some drops have been added to their sections *)
Definition rms_history (l : list (nat * (list vec * list vec))) : rms_result :=
  fold_left (fun r p => add_rms r (fst p) (rms_artifact (fst (snd p)) (snd (snd p)))) l new_rms.
(** Number of pairs of detections and targets of a drop, and the sum of the squares of their distances *)
Definition pair_count (d : list vec * list vec) : nat := (length (fst d) * length (snd d))%nat.
Definition pair_error (d : list vec * list vec) : R := rsum (fun p => rsum (fun t => norm (vsub p t) ^ 2) (snd d)) (fst d).
Definition roc_history (n : nat) (l : list (nat * (R * R))) : roc := fold_left (fun r p => add_artifact r (fst p) (snd p)) l (new_roc n).
