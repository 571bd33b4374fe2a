(** Vocabulary for the statements about power amplifiers (C82). *)
From Coq Require Import List Reals.
From Coquelicot Require Import Complex.
From Verif Require Import Base Cplx.
Import ListNotations.
Open Scope R_scope.

(** A relation between every sample put in and the sample coming out in its place *)
Definition samplewise (R : C -> option C -> Prop) (x : list (list C)) (y : list (list (option C))) : Prop := Forall2 (Forall2 R) x y.
(** The output has the direction of the input *)
Definition same_phase (z w : C) : Prop := exists r, 0 <= r /\ w = (RtoC r * z)%C.
(** Points in increasing order *)
Fixpoint increasing (l : list R) : Prop :=
  match l with
  | a :: ((b :: _) as r) => a < b /\ increasing r
  | _ => True
  end.
