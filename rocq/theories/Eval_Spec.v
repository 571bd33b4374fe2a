(** Vocabulary for the evaluator theorems. *)
From Coq Require Import List Arith Bool.
From Verif Require Import Base Eval_Model.
Import ListNotations.

(** Bit [i] of a sequence continued with zeros *)
Definition bit (x : bits) (i : nat) : bool := nth i x false.

(** Number of positions below [n] at which two sequences, continued with zeros, differ *)
Fixpoint distance (n : nat) (x y : bits) : nat :=
  match n with
  | O => 0
  | S m => distance m x y + (if Bool.eqb (bit x m) (bit y m) then 0 else 1)
  end.

(** Block [j] of [k] bits of a sequence *)
Definition kth_block (k j : nat) (x : bits) : bits := firstn k (skipn (j * k) x).

(** All bits of a sequence of frames *)
Definition total (fs : list frame) : bits := concat (map f_bits fs).

(** All frames are cut into blocks of [k] bits and hold whole blocks only *)
Definition whole (k : nat) (fs : list frame) : Prop :=
  Forall (fun f => f_block f = k /\ exists n, length (f_bits f) = n * k) fs.
