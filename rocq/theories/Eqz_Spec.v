(** Specification of channel equalization *)
From Coq Require Import Arith Reals.
From Coquelicot Require Import Complex.
From Verif Require Import Base Cplx Eqz_Model.
Open Scope C_scope.

(** Product of matrices with [n] inner entries *)
Definition mul (n : nat) (A B : nat -> nat -> C) : nat -> nat -> C := fun i j => csum (fun k => A i k * B k j) n.
Definition conj (z : C) : C := Cconj z.
(** The four conditions of Moore and Penrose for the matrix [A] with [r] rows and [c] columns *)
Definition pseudo_inverse (r c : nat) (A P : nat -> nat -> C) : Prop :=
  (forall i j, (i < r)%nat -> (j < c)%nat -> mul r (fun a b => mul c A P a b) A i j = A i j) /\
  (forall i j, (i < c)%nat -> (j < r)%nat -> mul c (fun a b => mul r P A a b) P i j = P i j) /\
  (forall i j, (i < r)%nat -> (j < r)%nat -> conj (mul c A P j i) = mul c A P i j) /\
  (forall i j, (i < c)%nat -> (j < c)%nat -> conj (mul r P A j i) = mul r P A i j).
(** Different transmissions are received differently *)
Definition distinguishes (r c : nat) (A : nat -> nat -> C) : Prop :=
  forall x y : nat -> C, (forall i, (i < r)%nat -> csum (fun k => A i k * x k) c = csum (fun k => A i k * y k) c) ->
  forall k, (k < c)%nat -> x k = y k.
(** What receives the symbols [x] over the states of [s], with [n] added *)
Definition received (s : stated) (x : nat -> nat -> nat -> C) (n : nat -> nat -> nat -> C) : Prop :=
  forall r b k, (r < streams (sym s))%nat -> (b < blocks (sym s))%nat -> (k < width (sym s))%nat ->
  raw (sym s) r b k = csum (fun t => states s r t b k * x t b k) (tx s) + n r b k.
(** The pseudo-inverse is one at every symbol *)
Definition inverts (pinv : pinv_fun) (s : stated) : Prop :=
  forall b k, (b < blocks (sym s))%nat -> (k < width (sym s))%nat ->
  pseudo_inverse (streams (sym s)) (tx s) (fun r t => states s r t b k) (pinv (streams (sym s)) (tx s) (fun r t => states s r t b k)).
(** Same numbers and the same symbols *)
Definition same (a b : syms) : Prop :=
  streams a = streams b /\ blocks a = blocks b /\ width a = width b /\
  forall r l k, (r < streams a)%nat -> (l < blocks a)%nat -> (k < width a)%nat -> raw a r l k = raw b r l k.
