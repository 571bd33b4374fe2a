(** Models hermespy/jcas/ofdm_radar.py: radar processing of communication frames of orthogonal frequency division multiplexing.

    Simplifications for the whole file
    - exact real and complex arithmetic;
    - demodulation is a function from samples to the grid of received symbols (modelled in Grid_Model and Ofdm_Model), beamforming is left out: there are as many
      lines of samples as directions of interest;
    - the communication part of a reception, the detector and serialization are left out;
    - grids of received and transmitted symbols of different shapes raise an error, even if numpy could broadcast them. *)
From Coq Require Import List Reals Bool Arith.
From Coquelicot Require Import Complex.
From Verif Require Import Base Cplx Radar_Model.
From Verif Require Mf_Model Fmcw_Model.
Import ListNotations.
Local Open Scope nat_scope.

Notation grid := (list (list C)).
Definition entry (g : grid) (r c : nat) : C := at0 (nth r g []) c.
Definition Ceqb (a b : C) : bool := if Ceq_dec a b then true else false.
(** 194-200: numpy.divide with the entries of unused subcarriers left at zero *)
Definition normalized (y x : grid) (r c : nat) : C := if Ceqb (entry x r c) (RtoC 0) then RtoC 0 else (entry y r c / entry x r c)%C.
(** 203: inverse transform over the subcarriers, transform over the words, rows shifted by numpy.fft.ifftshift *)
Definition profile (words carriers : nat) (v : nat -> nat -> C) (u k : nat) : C :=
  csum (fun r => csum (fun c => v r c * cis (turn carriers k c))%C carriers / RtoC (INR carriers) * cis (- turn words (Fmcw_Model.unshift words u) r))%C words.
(** 173-204 *)
Definition has_shape (words carriers : nat) (g : grid) : bool := (length g =? words) && forallb (fun r => length r =? carriers) g.
Definition estimate (demodulate : list C -> result grid) (words carriers : nat) (x : grid) (line : list C) : result (nat -> nat -> R) :=
  do y <- demodulate line;
  if has_shape words carriers y && has_shape words carriers x then Ok (fun u k => Cmod (profile words carriers (normalized y x) u k)) else Raise ValueError.

(** 96-133, 135-161 *)
Definition max_range (carriers : nat) (bandwidth : R) : R := (speed_of_light * INR carriers / (2 * bandwidth))%R.
Definition range_resolution (bandwidth : R) : R := (speed_of_light / (2 * bandwidth))%R.
Definition max_relative_doppler (duration : R) : R := (1 / (4 * duration))%R.
Definition relative_doppler_resolution (duration : R) : R := (1 / (2 * duration))%R.
Definition range_bins (carriers : nat) (bandwidth : R) : list R := map (fun k => INR k * range_resolution bandwidth)%R (seq 0 carriers).
Definition doppler_bins (words : nat) (duration : R) : list R := map (fun k => INR k * relative_doppler_resolution duration - max_relative_doppler duration)%R (seq 0 words).
(** 239: assignment of [estimate[first:]], which has a row for each word after [first], to a matrix with a column for each range after [first];
    numpy accepts equal numbers of rows and columns and repeats single rows and columns *)
Definition assign (words carriers first : nat) (e : nat -> nat -> R) : result (nat -> nat -> R) :=
  let rows := words - first in
  let columns := carriers - first in
  if ((rows =? words) || (rows =? 1)) && ((carriers =? columns) || (carriers =? 1))
  then Ok (fun u k => e (first + if rows =? words then u else 0) (if carriers =? columns then k else 0))
  else Raise ValueError.
(** 207-255; [last] are the symbols of the last transmission, placed in the grid *)
Definition receive (demodulate : list C -> result grid) (words carriers : nat) (min_range : R) (last : option grid) (bandwidth duration carrier : R)
    (angles : list (R * R)) (lines : list (list C)) : result cube :=
  match last with
  | None => Raise RuntimeError
  | Some x =>
      let first := Mf_Model.ceil_of (min_range / range_resolution bandwidth) in
      do data <- mapM (fun line => do e <- estimate demodulate words carriers x line; assign words carriers first e) lines;
      make_cube (length angles) words (carriers - first) (fun a d k => nth a data (fun _ _ => 0%R) d k)
        (Some angles) (Some (doppler_bins words duration)) (Some (skipn first (range_bins carriers bandwidth))) carrier
  end.
