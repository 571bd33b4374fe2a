(** Vocabulary for the statements about isolation and coupling (C78, C79). *)
From Coq Require Import List Reals Bool Arith.
From Coquelicot Require Import Complex.
From Verif Require Import Base Cplx Chan_Model Iso_Model.
Import ListNotations.
Open Scope R_scope.

(** The streams of [y] are the combinations [w i t] of the streams of [b], at every sample *)
Definition combines (w : nat -> nat -> C) (outputs : nat) (b : blk) (y : xblk) : Prop :=
  x_streams y = outputs /\ x_samples y = samples b /\
  forall i j, (i < outputs)%nat -> (j < samples b)%nat -> x_at y i j = Some (csum (fun t => (w i t * x b t j)%C) (streams b)).
(** All blocks of a signal have the signal's streams *)
Definition uniform (s : sig) : Prop := Forall (fun b => streams b = s_streams s) (s_blocks s).
(** [i] inverts the matrix [m] *)
Definition inverts (m i : cmat) : Prop :=
  c_rows i = c_rows m /\ c_cols i = c_cols m /\
  forall p q, (p < c_rows m)%nat -> (q < c_cols m)%nat ->
    csum (fun k => (c_e m p k * c_e i k q)%C) (c_cols m) = (if Nat.eqb p q then RtoC 1 else RtoC 0).
(** The implementation of np.linalg.inv returns an inverse of [m] *)
Definition finds_inverse (inv : cmat -> result cmat) (m : cmat) : Prop := exists i, inv m = Ok i /\ inverts m i.
(** Twice the identity, the sum of the default matching impedance and the default correlation *)
Definition two_eye (n : nat) : cmat := CMat n n (fun p q => if Nat.eqb p q then (RtoC 1 + RtoC 1)%C else (RtoC 0 + RtoC 0)%C).
