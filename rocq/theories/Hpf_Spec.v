(** Sums of coefficients and states that constant inputs leave as they are. *)
From Coq Require Import Arith Reals.
From Coquelicot Require Import Complex.
From Verif Require Import Hpf_Model.
Open Scope R_scope.
Fixpoint total (f : nat -> C) (n : nat) : C := match n with O => RtoC 0 | S k => (total f k + f k)%C end.
(** Sums over all coefficients: numerator and denominator of the response to constants *)
Definition gain_numerator (c : coefficients) : C := total (numerator c) (degree c + 1).
Definition gain_denominator (c : coefficients) : C := total (denominator c) (degree c + 1).
(** Normalized denominator, and an initial state which a constant input of one keeps (scipy.signal.lfilter_zi) *)
Definition well_designed (c : coefficients) : Prop :=
  denominator c 0%nat = RtoC 1 /\ gain_denominator c <> RtoC 0 /\ (forall i, (degree c <= i)%nat -> initial c i = RtoC 0) /\
  forall i, (i < degree c)%nat -> initial c i = (numerator c (S i) + initial c (S i) - denominator c (S i) * (numerator c 0%nat + initial c 0%nat))%C.
(** y is the response of the filter to x: the difference equation of the coefficients, from the first sample with a complete past *)
Definition filters (c : coefficients) (x y : nat -> C) : Prop :=
  forall k, (degree c <= k)%nat -> total (fun i => denominator c i * y (k - i)%nat)%C (degree c + 1) = total (fun i => numerator c i * x (k - i)%nat)%C (degree c + 1).
