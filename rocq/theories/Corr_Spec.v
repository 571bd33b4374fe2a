(** Vocabulary for the corrections of calibrations. *)
From Coq Require Import List Arith ZArith Lia Reals Lra Bool.
From Coquelicot Require Import Complex.
From Verif Require Import Base Cplx Corr_Model.
Import ListNotations.
Local Open Scope nat_scope.

(** [z] is the integer nearest to [x], the even one of two *)
Definition nearest (x : R) (z : Z) : Prop := (Rabs (x - IZR z) < 1 / 2)%R \/ (Rabs (x - IZR z) = 1 / 2)%R /\ Z.even z = true.

(** Samples [y] arriving [k] samples late *)
Definition late (k : nat) (y : nat -> nat -> C) : nat -> nat -> C := fun i j => if j <? k then RtoC 0 else y i (j - k).
(** Hardware that delays every row by [k] samples and multiplies it by [g] *)
Definition echo (k : nat) (g : C) (row : list C) : list C := map (fun j => if j <? k then RtoC 0 else (g * nth (j - k) row (RtoC 0))%C) (seq 0 (length row)).

(** numpy's order of complex numbers *)
Definition above_zero (g : C) : Prop := (0 < fst g)%R \/ (fst g = 0)%R /\ (0 < snd g)%R.
Definition below_zero (g : C) : Prop := (fst g < 0)%R \/ (fst g = 0)%R /\ (snd g < 0)%R.

Fixpoint power (z : C) (n : nat) : C := match n with 0 => RtoC 1 | S n => (z * power z n)%C end.
(** [f] applied n times *)
Fixpoint again (n : nat) (f : dense -> result dense) (s : dense) : result dense := match n with 0 => Ok s | S n => do x <- again n f s; f x end.
