(** Models hermespy/radar/fmcw.py and Radar._transmit, Radar._receive, Radar.max_range, Radar.velocity_resolution of hermespy/radar/radar.py.

    Simplifications for the whole file
    - exact real and complex arithmetic;
    - the anti-aliasing filters and resamplers (scipy.signal.decimate, scipy.signal.resample_poly) are functions on the samples of one chirp;
    - bandwidths are positive, oversampling factors at least one;
    - there are as many lines of samples as directions of interest; point detection and serialization are left out. *)
From Coq Require Import List Reals Bool Arith ZArith.
From Coquelicot Require Import Complex.
From Verif Require Import Base Cplx Radar_Model.
Import ListNotations.
Local Open Scope nat_scope.

(** Python's [int] of a real number *)
Definition truncate (x : R) : Z := if Rle_dec 0 x then Int_part x else (- Int_part (- x))%Z.
(** 53-89; an ADC sampling rate of zero is derived from the bandwidth *)
Record fmcw := mkFmcw { num_chirps : nat; chirp_duration : R; interval : R; adc_rate : R }.
(** 205-210, 228-233, 245-250, 268-273 *)
Definition make_fmcw (chirps : nat) (duration pri adc : R) : result fmcw :=
  if chirps <? 1 then Raise ValueError else if Rleb duration 0 then Raise ValueError
  else if Rleb pri 0 then Raise ValueError else if Rltb adc 0 then Raise ValueError else Ok (mkFmcw chirps duration pri adc).

Definition rate_of (bandwidth : R) (oversampling : nat) : R := (bandwidth * INR oversampling)%R.
(** 282-300 *)
Definition chirp_samples (w : fmcw) (b : R) (o : nat) : nat := Z.to_nat (truncate (chirp_duration w * rate_of b o)).
Definition chirp_phase (w : fmcw) (b : R) (t : R) : R := (PI * (- b * t + b / chirp_duration w * t ^ 2))%R.
Definition chirp (w : fmcw) (b : R) (o : nat) : list C :=
  map (fun n => cis (chirp_phase w b (INR n / rate_of b o))) (seq 0 (chirp_samples w b o)).
(** 302-325 *)
Definition pulse (w : fmcw) (b : R) (o : nat) : result (list C) :=
  let zeros := truncate ((interval w - chirp_duration w) * b * INR o) in
  if (zeros <? 0)%Z then Raise RuntimeError else Ok (chirp w b o ++ repeat (RtoC 0) (Z.to_nat zeros)).
(** 92-95, 327-333 *)
Definition ping (w : fmcw) (b : R) (o : nat) : result (list C) := do p <- pulse w b o; Ok (concat (repeat p (num_chirps w))).
(** 171-177, 275-276 *)
Definition frame_duration (w : fmcw) : R := (interval w * INR (num_chirps w))%R.
Definition samples_per_frame (w : fmcw) (b : R) (o : nat) : nat := Z.to_nat (truncate (frame_duration w * b * INR o)).
Definition energy (w : fmcw) (b : R) (o : nat) : nat := num_chirps w * Z.to_nat (truncate (chirp_duration w * b * INR o)).
(** 139-169 *)
Definition max_range (w : fmcw) (b : R) : R :=
  let a := if Rltb 0 (adc_rate w) then adc_rate w else b in (a * speed_of_light / (2 * b / chirp_duration w))%R.
Definition range_resolution (b : R) : R := (speed_of_light / (2 * b))%R.
Definition max_relative_doppler (w : fmcw) : R := (1 / (4 * interval w))%R.
Definition relative_doppler_resolution (w : fmcw) : R := (1 / (2 * frame_duration w))%R.
Definition relative_doppler_bins (w : fmcw) : list R :=
  map (fun k => INR k * relative_doppler_resolution w - max_relative_doppler w)%R (seq 0 (num_chirps w)).
(** 179-189; numpy.linspace of a single point is its start *)
Definition linspace (a b : R) (n : nat) : list R :=
  map (fun i => if n =? 1 then a else a + INR i * ((b - a) / INR (n - 1)))%R (seq 0 n).
Definition range_bins (w : fmcw) (b : R) : list R :=
  let a := if Rleb (adc_rate w) 0 then b else adc_rate w in
  let m := max_range w a in linspace 0 m (Z.to_nat (truncate (m / range_resolution b))).

(** 98-137; [filter] turns the mixed samples of one chirp into those of the analog-to-digital conversion *)
Definition padded (n : nat) (x : list C) : list C := firstn n (x ++ repeat (RtoC 0) (n - length x)).
Definition row (p i : nat) (x : list C) : list C := firstn p (skipn (i * p) x).
(** 115-116: numpy broadcasts arrays of a single column *)
Definition mixed (c : list C) (r : list C) : result (list C) :=
  let r := firstn (length c) r in
  if length r =? length c then Ok (map (fun n => conj (at0 r n) * at0 c n)%C (seq 0 (length c)))
  else if length r =? 1 then Ok (map (fun n => conj (at0 r 0) * at0 c n)%C (seq 0 (length c)))
  else Raise ValueError.
Definition num_bins (w : fmcw) (b : R) (o : nat) : nat :=
  let a := if Rltb 0 (adc_rate w) && Rltb (adc_rate w) (rate_of b o) then adc_rate w else b in
  Z.to_nat (truncate (max_range w a / range_resolution b)).
(** 133: numpy.fft.fft2 of a matrix with its columns padded or cropped to [n] *)
Definition fft2 (rows : list (list C)) (n : nat) (u k : nat) : C :=
  csum (fun r => csum (fun c => at0 (nth r rows []) c * cis (- turn n k c))%C n * cis (- turn (length rows) u r))%C (length rows).
(** 135: numpy.fft.ifftshift *)
Definition unshift (n j : nat) : nat := (j + n / 2) mod n.
Definition estimate (filter : list C -> list C) (w : fmcw) (b : R) (o : nat) (x : list C) : result (nat -> nat -> R) :=
  let p := Z.to_nat (truncate (interval w * rate_of b o)) in
  if p =? 0 then Raise ValueError
  else
    let frame := padded (num_chirps w * p) x in
    do rows <- mapM (fun i => mixed (chirp w b o) (row p i frame)) (seq 0 (num_chirps w));
    let y := map filter rows in
    let n := num_bins w b o in
    if n =? 0 then Raise ValueError
    else Ok (fun u k => Cmod (fft2 y n (unshift (num_chirps w) u) k) ^ 2)%R.

(** ** Radar *)
(** radar.py:700-732 *)
Definition velocity_resolution (w : fmcw) (carrier : R) : result R :=
  if Req_EM_T carrier 0 then Raise RuntimeError else Ok (1 / 2 * relative_doppler_resolution w * speed_of_light / carrier)%R.
(** radar.py:735-751 *)
Definition transmit (w : fmcw) (b : R) (o ports : nat) : result (list C) :=
  do s <- ping w b o; if 1 <? ports then Raise RuntimeError else Ok s.
(** radar.py:754-794 *)
Definition receive (filter : list C -> list C) (w : fmcw) (min_range b : R) (o : nat) (carrier : R) (angles : list (R * R)) (lines : list (list C)) : result cube :=
  let ranges := range_bins w b in
  let selected := List.filter (fun i => Rleb min_range (nth i ranges 0%R)) (seq 0 (length ranges)) in
  do estimates <- mapM (estimate filter w b o) lines;
  if existsb (fun i => num_bins w b o <=? i) selected then Raise IndexError
  else make_cube (length angles) (num_chirps w) (length selected)
         (fun a d k => nth a estimates (fun _ _ => 0%R) d (nth k selected 0))
         (Some angles) (Some (relative_doppler_bins w)) (Some (map (fun i => nth i ranges 0%R) selected)) carrier.
