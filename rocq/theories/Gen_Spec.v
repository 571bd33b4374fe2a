(** Vocabulary for sources of bits and generators of frames. *)
From Coq Require Import List Arith Bool.
From Verif Require Import Base.
Import ListNotations.
Local Open Scope nat_scope.

(** Bits as numbers, the most significant first *)
Fixpoint weight (l : bits) : nat := match l with [] => 0 | b :: r => (if b then 2 ^ length r else 0) + weight r end.
Definition bytes (l : list nat) : Prop := Forall (fun b => b < 256) l.
(** The bits of the answers that are no exceptions *)
Fixpoint answered (l : list (result bits)) : bits := match l with [] => [] | Ok b :: r => b ++ answered r | Raise _ :: r => answered r end.
(** Requests for whole bytes *)
Definition whole (n : nat) : bool := n mod 8 =? 0.
Definition total (requests : list nat) : nat := fold_right Nat.add 0 (filter whole requests).
