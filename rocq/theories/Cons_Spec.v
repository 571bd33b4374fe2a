(** Vocabulary for spatially consistent random variables. *)
From Coq Require Import List Reals Arith.
From Verif Require Import Base Rot_Model Cons_Model.
Import ListNotations.
Open Scope R_scope.

(** Every variable is registered at one generator only (possibly several times) *)
Definition one_owner (l : list (nat * nat)) : Prop := forall g h v, In (g, v) l -> In (h, v) l -> g = h.
(** The scalars that belong to a variable *)
Definition owns (w : world) (v k : nat) : Prop := (offset w v <= k < offset w v + size w v)%nat.
(** Distribution functions *)
Definition distribution (cdf : R -> R) : Prop := (forall s, 0 <= cdf s <= 1) /\ forall s t, s <= t -> cdf s <= cdf t.
(** Sums *)
Fixpoint sum {A} (f : A -> R) (l : list A) : R := match l with [] => 0 | a :: r => f a + sum f r end.
(** How many scalars a realization holds *)
Definition scalars_of (r : realization) : nat := match r with Static l => length l | Dual _ l => length l end.
