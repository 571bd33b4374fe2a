(** Ideal channel estimation: hermespy/simulation/modem/channel_estimation.py ("ce"), for one pair of receiving and transmitting antennas.
    Simplifications: complex numbers are exact; a channel state is a function of sample and delay tap (core/channel.py 135-143, in the format of an impulse response);
    the filters of a waveform have the same length and the oversampling factor is positive (both hold for all waveforms of modem/waveform_single_carrier.py). *)
From Coq Require Import List Reals Bool Arith.
From Coquelicot Require Import Complex.
From Verif Require Import Base Cplx Ofdm_Model Sc_Model.
Import ListNotations.
Local Open Scope nat_scope.

(** [taps] coefficients for each of [samples] samples *)
Record state := mkState { samples : nat; taps : nat; coefficient : nat -> nat -> C }.
(** ce 79-82: each channel sample realized is cached.  The state of the cached sample is used whatever the delay (84-131); [None] before the first sample.
    Both estimations access the waveform before (143, 260), so that a missing waveform is an AttributeError. *)
Definition cached {S} (history : list S) : option S := match rev history with [] => None | s :: _ => Some s end.
Definition csi {S} (attached : bool) (history : list S) : result S :=
  if negb attached then Raise AttributeError else match cached history with None => Raise RuntimeError | Some s => Ok s end.

(** * Single carrier waveforms, ce 140-179 *)
(** 148-150 *)
Definition characteristics (s : shaping) : list C := map (fun p => (fst p * snd p)%C) (combine (tx s) (rx s)).
(** 161-163: convolution over time *)
Definition filtered (c : list C) (h : state) (t d : nat) : C :=
  csum (fun i => at0 c i * (if (i <=? t) && (t - i <? samples h) then coefficient h (t - i) d else RtoC 0))%C (length c).
(** 165-167 *)
Definition summed (c : list C) (os : nat) (h : state) (t : nat) : C :=
  (filtered c h t 0 + csum (fun k => if S k <=? t then filtered c h (t - S k) (S k) else RtoC 0) (Nat.min os (taps h) - 1))%C.
(** 144, 170-175: [n] symbols, [os] samples apart; without taps the first tap is missing *)
Definition sc_states (s : shaping) (os n : nat) (h : state) : result (list C) :=
  if taps h =? 0 then Raise IndexError
  else let c := characteristics s in
       let len := samples h + length c - 1 in
       Ok (map (fun m => summed c os h (delay s / 2 + m * os)) (filter (fun m => delay s / 2 + m * os <? len) (seq 0 n))).
Definition sc_estimate (attached : bool) (history : list state) (s : shaping) (os n : nat) : result (list C) :=
  do h <- csi attached history; sc_states s os n h.

(** * OFDM waveforms, ce 215-295 *)
(** The frequency bins of the subcarriers, ofdm.py 141-154 *)
Definition bins {B} (dc : bool) (n os : nat) (g : list B) : list B :=
  let g := fftshift g in
  let g := if dc then roll_tail_left (dc_index n os) g else g in
  slice (pad_start n os) (n + pad_start n os) g.
(** 242: the taps, averaged over the samples of the word starting at sample [start] *)
Definition average (len : nat) (h : state) (start d : nat) : C := (csum (fun t => coefficient h (start + t) d) len / RtoC (INR len))%C.
(** 245-247: without normalization; scipy.fft.fft pads the taps with zeros, or drops those beyond the number of bins, ofdm.py 137-139 *)
Definition word_states (dc : bool) (n os : nat) (h : state) (start : nat) : list C :=
  bins dc n os (fft Backward (tab (os * n) (fun d => if d <? taps h then average (os * n) h start d else RtoC 0))).
(** 275-290: the first samples of the words of a frame are given by [starts] *)
Definition ofdm_estimate (attached : bool) (history : list state) (dc : bool) (n os : nat) (starts : list nat) : result (list (list C)) :=
  do h <- csi attached history; Ok (map (word_states dc n os h) starts).
