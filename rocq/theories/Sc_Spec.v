(** Vocabulary of the properties of single carrier waveforms. *)
From Coq Require Import List Reals Arith.
From Coquelicot Require Import Complex.
From Verif Require Import Base Cplx Sc_Model.
Import ListNotations.

(** Response of transmit and receive filter in a row, [k] samples after an impulse *)
Definition cascade (s : shaping) (k : nat) : C := csum (fun i => at0 (tx s) i * at0 (rx s) (k - i))%C (S k).
(** The first criterion of Nyquist: one at the sampling instant of a symbol and zero at those of all other symbols *)
Definition nyquist (s : shaping) : Prop :=
  cascade s (delay s) = RtoC 1 /\
  (forall k, cascade s (delay s + S k * spacing s) = RtoC 0) /\
  (forall k, S k * spacing s <= delay s -> cascade s (delay s - S k * spacing s) = RtoC 0).
(** Filters are not empty, symbols are at least one sample apart and the first symbol is sampled within the filtered signal *)
Definition usable (s : shaping) : Prop :=
  0 < spacing s /\ tx s <> [] /\ rx s <> [] /\ delay s + 1 < length (tx s) + length (rx s).
(** Demodulation of the modulated symbols *)
Definition loopback (s : shaping) (symbols : list C) : result (list C) :=
  do y <- modulate s (length symbols) symbols; demodulate s (length symbols) y.
(** Position of the [k]-th reference symbol within the frame *)
Definition reference_position (l : layout) (k : nat) : nat :=
  if k <? preamble l then k
  else if k <? preamble l + num_pilots l then preamble l + (k - preamble l + 1) * (1 + rate l) - 1
  else k - num_pilots l + payload l.
(** Position of the [k]-th data symbol within the frame: a pilot follows every [rate] data symbols until all pilots are placed *)
Definition data_position (l : layout) (k : nat) : nat := preamble l + k + min (num_pilots l) (k / rate l).
Definition num_references (l : layout) : nat := preamble l + num_pilots l + postamble l.
(** The nearest position between the first and the last of the sorted positions [idx] *)
Definition clamp (idx : list nat) (i : nat) : nat := max (hd 0 idx) (min i (last idx 0)).
