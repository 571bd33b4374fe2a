(** Vocabulary for 5G NR waveforms: the sequences of 3GPP TS 38.211, correlation, contents of words. *)
From Coq Require Import List Arith Bool ZArith.
From Verif Require Import Base Grid_Model.
Import ListNotations.

(** TS 38.211, 7.4.2.2.1: x(i + 7) = (x(i + 4) + x(i)) mod 2 with [x(6) … x(0)] = [1 1 1 0 1 1 0], and d(n) = 1 - 2 x((n + 43 N) mod 127) *)
Definition standard_bits (x : nat -> nat) : Prop :=
  (forall i, x (i + 7) = (x (i + 4) + x i) mod 2) /\ map x [6; 5; 4; 3; 2; 1; 0] = [1; 1; 1; 0; 1; 1; 0].
Definition standard_pss (x : nat -> nat) (shift n : nat) : Z := (1 - 2 * Z.of_nat (x ((n + shift) mod 127)%nat))%Z.
(** Correlation of a sequence with itself, cyclically shifted *)
Definition correlation (s : list Z) (k : nat) : Z :=
  fold_right Z.add 0%Z (map (fun n => (nth n s 0 * nth ((n + k) mod length s)%nat s 0)%Z) (seq 0 (length s))).
(** Words of the grid: synchronization sequences in the middle, or references followed by three data symbols each *)
Definition sync_word (rb : nat) : list (option etype) :=
  repeat (Some NULL) (6 * rb - 64) ++ repeat (Some REFERENCE) 127 ++ repeat (Some NULL) (6 * rb - 63).
Definition data_word (rb : nat) : list (option etype) :=
  concat (repeat [Some REFERENCE; Some DATA; Some DATA; Some DATA] (3 * rb)).
(** The words of a slot or subframe: synchronization sequences in the first and third *)
Definition words_of (rb words : nat) : list (list (option etype)) := [sync_word rb; data_word rb; sync_word rb] ++ repeat (data_word rb) (words - 3).
(** The three waveforms and what they should consist of *)
From Verif Require Import Nr_Model.
Inductive kind := Slot | Subframe (numerology : nat) | Frame (numerology : nat).
Definition built {A} (k : kind) (rb : nat) : list A -> bool -> (nat -> list A) -> @wave A :=
  match k with Slot => slot_wave rb | Subframe mu => subframe_wave mu rb | Frame mu => frame_wave mu rb end.
Definition parts (k : kind) : nat := match k with Frame _ => 10 | _ => 1 end.
Definition part_words (k : kind) : nat := match k with Slot => 14 | Subframe mu | Frame mu => 14 * 2 ^ mu end.
