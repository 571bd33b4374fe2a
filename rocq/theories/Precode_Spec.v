(** Vocabulary of the precoding properties. *)
From Coq Require Import Reals List Arith ZArith.
From Coquelicot Require Import Complex.
From Verif Require Import Base Cplx Precode_Model.
Open Scope R_scope.
Open Scope C_scope.

(** What [nrx] receive antennas with perfect channel knowledge get of the transmitted
    streams: [h i t b k] is the coefficient from transmit stream [t] to antenna [i] for
    symbol [k] of block [b]. *)
Definition over_channel (nrx : nat) (h : nat -> nat -> nat -> nat -> C) (sent : stated) : stated :=
  mkStated nrx (streams sent) (blocks sent) (width sent)
    (fun i b k => csum (fun t => h i t b k * raw sent t b k) (streams sent)) h.

(** The coefficients do not change within groups of [n] blocks. *)
Definition constant_over (n : nat) (h : nat -> nat -> nat -> nat -> C) : Prop :=
  forall i t p m k, (m < n)%nat -> h i t (n * p + m)%nat k = h i t (n * p)%nat k.

(** First Penrose condition for real and complex matrices with given dimensions: all that
    is used of numpy.linalg.pinv. *)
Definition penrose_R (rows cols : nat) (a p : nat -> nat -> R) : Prop :=
  forall i j, (i < rows)%nat -> (j < cols)%nat ->
  rsum (fun c => (a i c * rsum (fun l => p c l * a l j) rows)%R) cols = a i j.
Definition penrose_C (rows cols : nat) (a p : nat -> nat -> C) : Prop :=
  forall i j, (i < rows)%nat -> (j < cols)%nat ->
  csum (fun c => a i c * csum (fun l => p c l * a l j) rows) cols = a i j.
(** Independent columns *)
Definition injective_R (rows cols : nat) (a : nat -> nat -> R) : Prop :=
  forall v, (forall i, (i < rows)%nat -> rsum (fun c => a i c * v c)%R cols = 0%R) ->
  forall c, (c < cols)%nat -> v c = 0%R.
Definition injective_C (rows cols : nat) (a : nat -> nat -> C) : Prop :=
  forall v, (forall i, (i < rows)%nat -> csum (fun c => a i c * v c) cols = 0) ->
  forall c, (c < cols)%nat -> v c = 0.

(** Equal symbols in equal shapes *)
Definition same_symbols (s x : stated) : Prop :=
  streams x = streams s /\ blocks x = blocks s /\ width x = width s
  /\ forall r b k, (r < streams s)%nat -> (b < blocks s)%nat -> (k < width s)%nat ->
     raw x r b k = raw s r b k.
