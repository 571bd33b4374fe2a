(** Vocabulary for the statements about sparse and dense signals (C39 - C42). *)
From Coq Require Import List Arith Bool ZArith.
From Verif Require Import Base Signal_Model.
Import ListNotations.

Section Spec.
Variable A : Type.
Variable zero : A.
Notation col := (list A).
Notation block := (block A).
Notation signal := (signal A).

(** The column a signal stores for instant [t] (counted from its start), if any. *)
Definition at_block (b : block) (t : nat) : option col :=
  if k_off b <=? t then nth_error (k_cols b) (t - k_off b) else None.
Fixpoint at_blocks (bs : list block) (t : nat) : option col :=
  match bs with
  | [] => None
  | b :: r => match at_block b t with
              | Some c => Some c
              | None => at_blocks r t
              end
  end.

(** The signal's value at instant [t]: silence where nothing is stored. *)
Definition value (ns : nat) (x : signal) (t : nat) : col :=
  match at_blocks (blocks x) t with
  | Some c => c
  | None => repeat zero ns
  end.
(** Same for possibly negative instants. *)
Definition valueZ (ns : nat) (x : signal) (t : Z) : col :=
  if (t <? 0)%Z then repeat zero ns else value ns x (Z.to_nat t).

(** Blocks in ascending order without overlap, not before [lo]. *)
Fixpoint ordered (lo : nat) (bs : list block) : Prop :=
  match bs with
  | [] => True
  | b :: r => lo <= k_off b /\ ordered (k_end b) r
  end.

(** A signal with [ns] streams in all of its blocks and columns. *)
Definition streams_ok (ns : nat) (bs : list block) : Prop :=
  Forall (fun b => k_ns b = ns /\ Forall (fun c => length c = ns) (k_cols b)) bs.
Definition well_formed (ns : nat) (x : signal) : Prop :=
  streams_ok ns (blocks x) /\ ordered 0 (blocks x).

(** No stored column other than silence sums to zero over the streams. *)
Definition no_cancelling (add : A -> A -> A) (is_zero : A -> bool) (x : signal) : Prop :=
  forall t c, at_blocks (blocks x) t = Some c -> is_zero (fold_left add c zero) = true -> c = repeat zero (length c).

(** The instants [a], [a + step], ... : a block lies on that raster if it starts before [a]
    or on one of them. *)
Definition aligned (a step : nat) (b : block) : Prop := k_off b <= a \/ step <= 2 \/ (k_off b - a) mod step = 0.
End Spec.
Arguments no_cancelling {A}. Arguments aligned {A}.
Arguments at_block {A}. Arguments at_blocks {A}. Arguments value {A}. Arguments valueZ {A}.
Arguments ordered {A}. Arguments streams_ok {A}. Arguments well_formed {A}.

(** Samples: zero is neutral and is recognised by the test. *)
Record laws {A : Type} (zero : A) (add : A -> A -> A) (is_zero : A -> bool) : Prop := {
  add_zero_l : forall x, add zero x = x;
  add_zero_r : forall x, add x zero = x;
  is_zero_spec : forall x, is_zero x = true <-> x = zero }.
