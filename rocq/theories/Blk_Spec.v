(** Vocabulary of the properties of radio frequency blocks. *)
From Coq Require Import List Reals.
From Coquelicot Require Import Complex.
From Verif Require Import Base Cplx Blk_Model.
Import ListNotations.
Open Scope R_scope.

(** One frequency and one noise power per stream, none of them negative, and as many samples in each stream as the signal reports *)
Definition well_formed (s : rf) : Prop :=
  length (freqs s) = length (streams s) /\ length (powers s) = length (streams s) /\
  Forall (fun r => length r = samples s) (streams s) /\ Forall (fun f => 0 <= f) (freqs s) /\ Forall (fun p => 0 <= p) (powers s).
(** Sample [n] of stream [i], zero outside of the signal *)
Definition value (s : rf) (i n : nat) : C := nth n (nth i (streams s) []) (RtoC 0).
(** The attribute carrier_frequency names the frequency of the first stream *)
Definition attribute_agrees (s : rf) : Prop := cf s = nth 0 (freqs s) 0.
(** A signal with a single stream *)
Definition single (row : list C) (f p : R) : rf := Rf [row] (length row) [f] [p] f p.
(** A signal next to an oscillator *)
Definition beside (x lo : list C) (f flo : R) (p plo c q : R) : rf := Rf [x; lo] (length x) [f; flo] [p; plo] c q.
