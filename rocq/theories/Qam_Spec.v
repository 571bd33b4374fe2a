(** Vocabulary of the symbol mapping properties. *)
From Coq Require Import Reals List Arith Bool.
From Verif Require Import Base Qam_Model.
Import ListNotations.
Open Scope R_scope.

(** Squared distance of two points of the complex plane *)
Definition dist2 (y s : cplx) : R := abs2 (csub y s).
(** [b] labels the symbol [s] *)
Definition labels (m : mapper) (b : list bool) (s : cplx) : Prop := length b = bps m /\ symbol m b = Ok s.
(** [s] is closest to [y] among the symbols whose k-th bit is [v] *)
Definition nearest (m : mapper) (y : cplx) (k : nat) (v : bool) (s : cplx) : Prop :=
  (exists b, labels m b s /\ nth_error b k = Some v) /\
  forall b' s', labels m b' s' -> nth_error b' k = Some v -> dist2 y s <= dist2 y s'.
(** [b] labels the only symbol closest to [y] *)
Definition only_nearest (m : mapper) (y : cplx) (b : list bool) : Prop :=
  exists s, labels m b s /\ forall b' s', labels m b' s' -> b' <> b -> dist2 y s < dist2 y s'.
(** Number of differing bits *)
Fixpoint hamming (a b : list bool) : nat :=
  match a, b with x :: a', y :: b' => ((if Bool.eqb x y then 0 else 1) + hamming a' b')%nat | _, _ => 0%nat end.
(** Different labels, different symbols *)
Definition distinct (m : mapper) : Prop := forall b b' s, labels m b s -> labels m b' s -> b = b'.
(** Hard and soft versions of a mapper *)
Definition with_output (m : mapper) (soft : bool) : mapper := mkMapper (order m) (bps m) (is_complex m) (mapping m) soft.
(** Constant of the soft outputs: those of BPSK and QPSK are half the max-log difference *)
Definition soft_constant (m : mapper) : R :=
  if ((order m =? 2) || ((order m =? 4) && is_complex m))%nat then 1 / 2 else 1.
(** Mean energy of a list of symbols *)
Definition mean_energy (l : list cplx) : R := fold_right (fun z a => fst z * fst z + snd z * snd z + a) 0 l / INR (length l).
(** Binary value of a bit label, first bit most significant *)
Fixpoint weight (b : list bool) : nat :=
  match b with [] => 0%nat | x :: r => ((if x then 2 ^ length r else 0) + weight r)%nat end.
