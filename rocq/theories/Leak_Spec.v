(** Vocabulary for leakage. *)
From Coq Require Import List Arith ZArith Lia Reals Lra Bool.
From Coquelicot Require Import Complex.
From Verif Require Import Base Cplx Iso_Model Corr_Model Leak_Model.
Import ListNotations.
Local Open Scope nat_scope.

(** Sample [j] of what the ports [first <= k < last] of the [n] transmitted samples [x] leak into port [m], according to the impulse responses [h] of [taps] samples *)
Definition leaks (taps n : nat) (h : nat -> nat -> nat -> C) (x : nat -> nat -> C) (first last m j : nat) : C :=
  csum (fun q => let k := first + q in csum (fun a => if (a <=? j) && (j - a <? n) then h m k a * x k (j - a)%nat else RtoC 0)%C taps) (last - first).
(** The same, [s] samples later *)
Definition leaks_later (s taps n : nat) (h : nat -> nat -> nat -> C) (x : nat -> nat -> C) (first last m j : nat) : C :=
  if s <=? j then leaks taps n h x first last m (j - s) else RtoC 0.
(** Hardware whose receiving ports hear nothing but the leakage of [tx] ports sending [n] samples *)
Definition leaking_hardware (taps tx n : nat) (h : nat -> nat -> nat -> C) (x : nat -> nat -> C) : nat -> nat -> C := leaks taps n h x 0 tx.
(** Two signals without differences visible to users *)
Definition same_header (a b : dense) : Prop := streams a = streams b /\ samples a = samples b /\ rate a = rate b /\ carrier a = carrier b /\ delay a = delay b.
