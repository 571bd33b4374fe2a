(** Shared vocabulary: Python exceptions as values and Python / numpy list
    primitives.  Nothing in this file is specific to hermespy. *)
From Coq Require Import List Arith Lia Bool ZArith.
Import ListNotations.

(** The Python exceptions that occur in the modelled code. *)
Inductive exn : Set :=
| ValueError | RuntimeError | IndexError | KeyError | TypeError
| AttributeError | NotImplementedError | ZeroDivisionError | StopIteration | RecursionError
| AssertionError | OverflowError | FileNotFoundError.

(** Outcome of a Python call: a value or a raised exception. *)
Inductive result (A : Type) : Type :=
| Ok (a : A)
| Raise (e : exn).
Arguments Ok {A} a.
Arguments Raise {A} e.

Definition bind {A B} (r : result A) (f : A -> result B) : result B :=
  match r with Ok a => f a | Raise e => Raise e end.
Notation "'do' x <- r ; k" := (bind r (fun x => k))
  (at level 200, x name, r at level 100, k at level 200, right associativity).
Notation "'do' ' p <- r ; k" := (bind r (fun p => k))
  (at level 200, p strict pattern, r at level 100, k at level 200, right associativity).

Definition is_ok {A} (r : result A) : Prop := exists a, r = Ok a.
Definition raises {A} (r : result A) : Prop := exists e, r = Raise e.

(** [l[a:b]] for non-negative indices [a], [b] (Python clamps to the length). *)
Definition slice {A} (a b : nat) (l : list A) : list A := firstn (b - a) (skipn a l).

(** [ceil(a / b)] for naturals. *)
Definition ceil_div (a b : nat) : nat := (a + (b - 1)) / b.

(** [[l[i*k:(1+i)*k] for i in range(n)]]. *)
Definition blocks_of {A} (n k : nat) (l : list A) : list (list A) :=
  map (fun i => slice (i * k) ((1 + i) * k) l) (seq 0 n).

(** Sequential loop that may raise. *)
Fixpoint mapM {A B} (f : A -> result B) (l : list A) : result (list B) :=
  match l with
  | [] => Ok []
  | x :: t => do y <- f x; do ys <- mapM f t; Ok (y :: ys)
  end.

(** Bit vectors. *)
Notation bits := (list bool).
