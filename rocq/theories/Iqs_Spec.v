(** Vocabulary for split streams *)
From Coq Require Import Reals Bool Arith.
From Coquelicot Require Import Complex.
From Verif Require Import Base Cplx Iqs_Model.
Open Scope R_scope.

(** [theta] are angles of the second parts relative to the first parts of [y], within half a turn *)
Definition angles (theta : nat -> nat -> R) (y : sig) : Prop :=
  forall r i, (r < streams y / 2)%nat -> (i < width y)%nat -> - PI <= theta r i <= PI /\
    exists m, 0 <= m /\ at_ y (2 * r + 1) i = (RtoC m * cis (theta r i) * at_ y (2 * r) i)%C.
