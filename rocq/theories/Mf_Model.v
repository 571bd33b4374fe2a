(** Models hermespy/jcas/matched_filtering.py: radar estimation by correlating received samples with the transmitted communication signal,
    and RadarBase._receive_beamform of hermespy/radar/radar.py.

    Simplifications for the whole file
    - samples are complex numbers, correlations are sums (not computed by Fourier transforms);
    - transmissions hold at least one sample, sampling rates are positive;
    - the beamformer is a function from received streams to one line of samples per focus point, it outputs a single stream;
    - communication reception, point detection and serialization are left out. *)
From Coq Require Import List Reals Bool Arith ZArith.
From Coquelicot Require Import Complex.
From Verif Require Import Base Cplx Radar_Model.
Import ListNotations.
Local Open Scope nat_scope.

(** 57-126: settings; the receive beamformer is given by its probing directions and its probing function *)
Record radar := mkRadar {
  min_range : R; max_range : R; max_velocity : R; velocity_resolution : R;
  beamformer : option (list (R * R) * (list (list C) -> list (list C))) }.
(** 292-331 and radar.py:425-430 *)
Definition make_radar (min max velocity resolution : R) b : result radar :=
  if Rltb min 0 then Raise ValueError else if Rleb max 0 then Raise ValueError
  else if Rltb velocity 0 then Raise ValueError else if Rleb resolution 0 then Raise ValueError
  else Ok (mkRadar min max velocity resolution b).

(** State of the operator: the last transmitted streams; 133-139 *)
Definition state := option (list (list C)).
Definition transmit (s : state) (streams : list (list C)) : state := Some streams.

(** 251-267 *)
Definition range_resolution (rate : R) : R := (speed_of_light / (2 * rate))%R.
(** [int] of a non-negative number and [ceil] *)
Definition int_of (x : R) : nat := Z.to_nat (Int_part x).
Definition ceil_of (x : R) : nat := Z.to_nat (- Int_part (- x)).
(** 157 *)
Definition num_propagated (o : radar) (rate : R) : nat := int_of (max_range o / range_resolution rate).
(** 159-171 *)
Definition fit (n : nat) (stream : list C) : list C := firstn n (stream ++ repeat (RtoC 0) (n - length stream)).
(** radar.py:453-485 *)
Definition receive_beamform (o : radar) (streams : list (list C)) : result (list (R * R) * list (list C)) :=
  if 1 <? length streams then match beamformer o with None => Raise RuntimeError | Some (angles, probe) => Ok (angles, probe streams) end
  else Ok (match beamformer o with None => [(0%R, 0%R)] | Some (angles, _) => angles end, streams).
(** 177-195: [phase angle] is the phase response of the transmitting antennas at the carrier frequency of the transmission *)
Definition towards (tx : list (list C)) (response : list C) : list C :=
  map (fun l => csum (fun i => conj (at0 response i) * at0 (nth i tx []) l)%C (length tx)) (seq 0 (length (nth 0 tx []))).
Definition transmitted (phase : R * R -> list C) (angles : list (R * R)) (tx : list (list C)) : list (list C) :=
  if 1 <? length tx then map (fun a => towards tx (phase a)) angles else [nth 0 tx []].
(** 197-206: numpy.linspace of a single point is its start *)
Definition linspace (a b : R) (n : nat) : list R :=
  map (fun i => if n =? 1 then a else a + INR i * ((b - a) / INR (n - 1)))%R (seq 0 n).
Definition doppler_axis (o : radar) (carrier : R) : list R :=
  map (fun v => carrier * v / speed_of_light)%R (linspace (- max_velocity o) (max_velocity o) (int_of (2 * max_velocity o / velocity_resolution o) + 1)).
(** 213-219 *)
Definition shifted (doppler rate : R) (l : nat) (x : C) : C := (x * cis (4 * PI * doppler * INR l / rate))%C.
(** 222: scipy.signal.correlate in mode "valid" of two-dimensional arrays, entry [a, k] *)
Definition correlate (x y : list (list C)) (m : nat) (f : nat -> C -> C) (a k : nat) : C :=
  csum (fun i => csum (fun l => at0 (nth (a + i) x []) (k + l) * conj (f l (at0 (nth i y []) l)))%C m) (length y).
(** 211-228: lines are repeated if the correlation has only a single one; the correlation is refused if there are less received than transmitted lines *)
Definition power (x y : list (list C)) (m angles : nat) (f : nat -> C -> C) (a k : nat) : R :=
  let lines := length x - length y + 1 in
  (Cmod (correlate x y m f (if lines =? angles then a else 0) k) ^ 2 / INR m)%R.
(** 146-249 *)
Definition receive (o : radar) (s : state) (rate carrier : R) (phase : R * R -> list C) (streams : list (list C)) : result cube :=
  match s with
  | None => Raise RuntimeError
  | Some tx =>
      let m := length (nth 0 tx []) in
      let n := num_propagated o rate in
      do b <- receive_beamform o (map (fit (m + n)) streams);
      let '(angles, x) := b in
      let y := transmitted phase angles tx in
      let dopplers := doppler_axis o carrier in
      if (length x <? length y) && (0 <? n) then Raise ValueError
      else
        let first := ceil_of (2 * min_range o / range_resolution rate) in
        make_cube (length angles) (length dopplers) (n - first)
          (fun a d k => power x y m (length angles) (shifted (nth d dopplers 0%R) rate) a (first + k))
          (Some angles) (Some dopplers) (Some (map (fun k => INR (first + k) * range_resolution rate)%R (seq 0 (n - first)))) carrier
  end.
