(** Vocabulary for resampling and mixing. *)
From Coq Require Import List Reals ZArith Arith.
From Coquelicot Require Import Complex.
From Verif Require Import Base Cplx Chan_Model.
Import ListNotations.
Open Scope R_scope.

(** Blocks one after the other *)
Fixpoint ordered (l : list blk) : Prop :=
  match l with a :: ((b :: _) as t) => (offset a + samples a <= offset b)%nat /\ ordered t | _ => True end.
(** The sampling rate is raised to a multiple of itself *)
Definition multiple (old new : R) (m : nat) : Prop := (2 <= m)%nat /\ new = INR m * old /\ 0 < old.
(** Turns of the phase, in parts of the circle *)
Definition turned (t : R) : C := (cos (2 * PI * t), sin (2 * PI * t)).
(** The same samples as [b] at the same time, with zeros before instead of an offset *)
Definition filled (b d : blk) : Prop :=
  streams d = streams b /\ offset d = 0%nat /\ samples d = (offset b + samples b)%nat /\
  forall r n, (n < samples d)%nat -> x d r n = if Nat.ltb n (offset b) then RtoC 0 else x b r (n - offset b)%nat.
