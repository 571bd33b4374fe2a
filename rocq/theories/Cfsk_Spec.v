(** Vocabulary of the properties of chirp frequency shift keying. *)
From Coq Require Import List Reals Bool Arith.
From Coquelicot Require Import Complex.
From Verif Require Import Base Cplx Cfsk_Model.
Import ListNotations.

(** Two symbols are transmitted by different chirps *)
Definition distinct_chirps (c : fsk) : Prop := forall i j, i < order c -> j < order c -> chirp c i = chirp c j -> i = j.
(** Magnitude of the correlation of two chirps *)
Definition overlap (c : fsk) (i j : nat) : R := Cmod (csum (fun k => at0 (chirp c i) k * conj (at0 (chirp c j) k))%C (samples_in_chirp c)).
(** Symbols that fill a frame *)
Definition fills (c : fsk) (symbols : list nat) : Prop := length symbols = chirps c /\ Forall (fun s => s < order c) symbols.
(** Total magnitude of the noise [w] during the [k]-th data chirp *)
Fixpoint rsum (f : nat -> R) (n : nat) : R := match n with O => 0%R | S k => (rsum f k + f k)%R end.
Definition noise_in_chirp (c : fsk) (w : nat -> C) (k : nat) : R := rsum (fun t => Cmod (w (samples_in_chirp c * (pilots c + k) + t)%nat)) (samples_in_chirp c).
(** The frame arrives with a complex gain and noise; samples which were not initialised may have any value *)
Definition arrives (h : C) (w : nat -> C) (frame : list (option C)) (signal : list C) : Prop :=
  length signal = length frame /\ forall t v, nth_error frame t = Some (Some v) -> nth_error signal t = Some (h * v + w t)%C.
