(** Models hermespy/simulation/rf/presets/ti/xwr1843.py (radar waveform) and Radar._receive of hermespy/radar/radar.py for it.

    Simplifications for the whole file
    - exact real and complex arithmetic;
    - scipy.signal.resample is a function on the samples of one stream;
    - beamforming, point detection and the radio-frequency chain of the preset are left out. *)
From Coq Require Import List Reals Bool Arith ZArith.
From Coquelicot Require Import Complex.
From Verif Require Import Base Cplx Radar_Model.
Import ListNotations.
Local Open Scope nat_scope.

(** Python's [int] of a non-negative real number *)
Definition whole (x : R) : nat := Z.to_nat (Int_part x).
(** simulation/rf/blocks/ramp.py:76-124: the parameters of the ramp used by the waveform *)
Record ramp := mkRamp { num_chirps : nat; chirp_slope : R; chirp_interval : R }.
(** 45 *)
Definition adc_rate : R := 12500000%R.
(** 180-183; [signal] samples at rate [r]; the result is the decimation factor *)
Definition decimation (r : R) : nat := if Rltb adc_rate r then whole (r / adc_rate) else 1.
Definition decimated_rate (r : R) : R := (r / INR (decimation r))%R.
Definition every (k : nat) (x : list C) : list C := tab (ceil_div (length x) k) (fun i => at0 x (i * k)).
(** 185 *)
Definition chirp_samples (p : ramp) (r : R) : nat := whole (chirp_interval p * decimated_rate r).
(** 193; numpy.ndarray.reshape of all streams *)
Definition reshape (rows columns : nat) (x : list (list C)) : result (list (list C)) :=
  if length (concat x) =? rows * columns then Ok (blocks_of rows columns (concat x)) else Raise ValueError.
(** 194; scipy.fft.fft2 *)
Definition transform (columns : nat) (stack : list (list C)) : list (list C) := fft_cols Forward columns (map (fft Forward) stack).
(** 195-196 *)
Definition range_half (columns : nat) (g : list (list C)) : list (list C) := map (fun row => rev (firstn (columns / 2 + 1) (fftshift row))) (fftshift g).
Definition powers (g : list (list C)) : list (list R) := map (map (fun z => Cmod z ^ 2)%R) g.
(** 176-196; [resample m] turns the samples of one stream into [m] samples *)
Definition estimate (resample : nat -> list C -> list C) (p : ramp) (r : R) (streams : list (list C)) : result (list (list R)) :=
  let n := chirp_samples p r in
  do stack <- reshape (num_chirps p) n (map (resample (n * num_chirps p)) (map (every (decimation r)) streams));
  Ok (powers (range_half n (transform n stack))).

(** 207-209 *)
Definition max_range (p : ramp) : R := (adc_rate * speed_of_light / (4 * chirp_slope p))%R.
(** numpy.linspace from zero; a single point is its start *)
Definition linspace (b : R) (n : nat) : list R := tab n (fun i => if n =? 1 then 0 else INR i * (b / INR (n - 1)))%R.
(** 198-201 *)
Definition num_range_bins (p : ramp) : nat := whole (chirp_interval p * adc_rate / 2) + 1.
Definition range_bins (p : ramp) : list R := linspace (max_range p) (num_range_bins p).
(** 203-205 *)
Definition frame_duration (p : ramp) : R := (INR (num_chirps p) * chirp_interval p)%R.
(** 211-213 *)
Definition range_resolution (p : ramp) (bandwidth : R) : R := (2 * max_range p / (chirp_interval p * bandwidth))%R.
(** 215-233 *)
Definition max_relative_doppler (p : ramp) : R := (1 / (4 * chirp_interval p))%R.
Definition relative_doppler_resolution (p : ramp) : R := (1 / (2 * INR (num_chirps p) * chirp_interval p))%R.
Definition relative_doppler_bins (p : ramp) : list R := tab (num_chirps p) (fun k => INR k * relative_doppler_resolution p - max_relative_doppler p)%R.
(** 164-174: no streams, and the number of samples of each of them *)
Definition ping (p : ramp) (r : R) : list (list C) * nat := ([], whole (frame_duration p * r)).
(** 155-157 *)
Definition energy (p : ramp) (bandwidth : R) (oversampling : nat) : R := (INR (num_chirps p) * bandwidth ^ 2 / chirp_slope p * INR oversampling)%R.
(** 51-66 *)
Definition default_ramp : ramp := mkRamp 16 100000000000000 (3000000000 / 100000000000000).

(** radar/radar.py:767-779: the columns of the selected range bins of one beamformed line; numpy refuses columns out of bounds *)
Definition selected (p : ramp) (min_range : R) : list nat := filter (fun i => Rleb min_range (nth i (range_bins p) 0%R)) (seq 0 (num_range_bins p)).
Definition pick (columns : list nat) (g : list (list R)) (width : nat) : result (list (list R)) :=
  if forallb (fun c => c <? width) columns then Ok (map (fun row => map (fun c => nth c row 0%R) columns) g) else Raise IndexError.
Definition receive_line (resample : nat -> list C -> list C) (p : ramp) (min_range r : R) (line : list C) : result (list (list R) * list R) :=
  do e <- estimate resample p r [line];
  do g <- pick (selected p min_range) e (chirp_samples p r / 2 + 1);
  Ok (g, map (fun i => nth i (range_bins p) 0%R) (selected p min_range)).
