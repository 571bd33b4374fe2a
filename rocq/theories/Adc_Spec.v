(** Vocabulary for the converter theorems. *)
From Coq Require Import Reals List Arith.
From Verif Require Import Base Adc_Model.
Import ListNotations.
Open Scope R_scope.

(** All amplitudes, in-phase and quadrature, of a signal *)
Definition amplitudes (s : signal) : list R := concat (real s) ++ concat (imag s).

(** All rows have [n] samples *)
Definition rectangular (n : nat) (s : signal) : Prop := Forall (fun r => length r = n) s.

(** [m] is the largest absolute amplitude *)
Definition is_peak (m : R) (l : list R) : Prop :=
  Forall (fun x => Rabs x <= m) l /\ exists x, In x l /\ Rabs x = m.

(** Euclidean inner product and squared length *)
Definition dot (x y : list R) : R := fold_right Rplus 0 (map (fun '(a, b) => a * b) (combine x y)).
Definition energy (x : list R) : R := dot x x.

(** [s] is the matrix norm numpy.linalg.norm(., 2) computes: the largest factor by which the
    matrix [x] with [n] columns stretches a vector *)
Definition spectral_norm (n : nat) (x : list (list R)) (s : R) : Prop :=
  0 <= s /\
  (forall v, length v = n -> energy (map (fun r => dot r v) x) <= s ^ 2 * energy v) /\
  (exists v, length v = n /\ energy v = 1 /\ energy (map (fun r => dot r v) x) = s ^ 2).

(** Signals with the same numbers of samples whose components satisfy a relation *)
Definition samplewise (P : R -> R -> Prop) (s t : signal) : Prop :=
  Forall2 (Forall2 (fun a b : sample => P (fst a) (fst b) /\ P (snd a) (snd b))) s t.
