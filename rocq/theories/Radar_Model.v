(** Radar cubes and point detectors.
    Models hermespy/radar/cube.py (207-290, 333-346, 433-436) and hermespy/radar/detection.py
    (40-116, 170-239, 307-412, 431-455, 467-632) with exact real arithmetic.
    The data tensor is a function of angle, Doppler and range index together with its shape.
    Not modelled: visualisation and serialization. *)
From Coq Require Import Reals List Arith Bool.
From Verif Require Import Base.
Import ListNotations.
Open Scope R_scope.

Record cube := mkCube {
  na : nat; nd : nat; nr : nat;                (* shape of the data tensor *)
  data : nat -> nat -> nat -> R;
  angle_bins : list (R * R);                   (* azimuth and zenith *)
  doppler_bins : list R;
  range_bins : list R;
  carrier_frequency : R }.

Definition Rleb (x y : R) : bool := if Rle_dec x y then true else false.
Definition Rltb (x y : R) : bool := if Rlt_dec x y then true else false.

(** RadarCube.__init__ (cube.py:207-290) *)
Definition make_cube (sa sd sr : nat) (d : nat -> nat -> nat -> R) (angles : option (list (R * R)))
    (dopplers : option (list R)) (ranges : option (list R)) (fc : R) : result cube :=
  do a <- match angles with Some l => Ok l | None => if (sa =? 1)%nat then Ok [(0, 0)] else Raise ValueError end;
  do v <- match dopplers with Some l => Ok l | None => if (sd =? 1)%nat then Ok [0] else Raise ValueError end;
  let r := match ranges with Some l => l | None => map INR (seq 0 sr) end in
  if negb (sa =? length a)%nat then Raise ValueError
  else if negb (sd =? length v)%nat then Raise ValueError
  else if negb (sr =? length r)%nat then Raise ValueError
  else if Rltb fc 0 then Raise ValueError
  else Ok (mkCube sa sd sr d a v r fc).

Definition speed_of_light : R := 299792458.
(** velocity_bins (cube.py:333-346) *)
Definition velocity_bins (c : cube) : result (list R) :=
  if Rleb (carrier_frequency c) 0 then Raise RuntimeError
  else Ok (map (fun f => f * speed_of_light / carrier_frequency c) (doppler_bins c)).

(** numpy's row-major order of the index triples *)
Definition cells (c : cube) : list (nat * nat * nat) :=
  flat_map (fun a => flat_map (fun d => map (fun r => (a, d, r)) (seq 0 (nr c))) (seq 0 (nd c))) (seq 0 (na c)).
Definition at_cell (c : cube) (i : nat * nat * nat) : R := let '(a, d, r) := i in data c a d r.

(** numpy's max and min; of empty arrays they raise a ValueError *)
Definition list_max (l : list R) : result R :=
  match l with [] => Raise ValueError | x :: r => Ok (fold_left Rmax r x) end.
Definition list_min (l : list R) : result R :=
  match l with [] => Raise ValueError | x :: r => Ok (fold_left Rmin r x) end.

(** normalize_power (cube.py:433-436); dividing by zero is not modelled *)
Definition normalize_power (c : cube) : result cube :=
  do m <- list_max (map (at_cell c) (cells c));
  Ok (mkCube (na c) (nd c) (nr c) (fun a d r => data c a d r / m) (angle_bins c) (doppler_bins c) (range_bins c) (carrier_frequency c)).

(** PointDetection (detection.py:47-78) *)
Definition vec := (R * R * R)%type.
Record point := mkPoint { p_position : vec; p_velocity : vec; p_power : R }.
Definition make_point (position velocity : vec) (power : R) : result point :=
  if Rleb power 0 then Raise ValueError else Ok (mkPoint position velocity power).
Definition vscale (k : R) (v : vec) : vec := let '(x, y, z) := v in (k * x, k * y, k * z).
(** FromSpherical (detection.py:80-116) *)
Definition from_spherical (zenith azimuth range velocity power : R) : result point :=
  let normal := (cos azimuth * sin zenith, sin azimuth * sin zenith, cos zenith) in
  make_point (vscale range normal) (vscale velocity normal) power.

(** RadarPointCloud (detection.py:176-200, 231-239) *)
Record cloud := mkCloud { max_range : R; points : list point }.
Definition make_cloud (m : R) : result cloud := if Rltb m 0 then Raise ValueError else Ok (mkCloud m []).
Definition add_point (c : cloud) (p : point) : cloud := mkCloud (max_range c) (points c ++ [p]).

(** The loops of detection.py:400-412 and 620-632 *)
Definition add_cell (c : cube) (acc : result cloud) (i : nat * nat * nat) : result cloud :=
  do k <- acc;
  let '(a, d, r) := i in
  do v <- velocity_bins c;
  let '(azimuth, zenith) := nth a (angle_bins c) (0, 0) in
  do p <- from_spherical zenith azimuth (nth r (range_bins c) 0) (nth d v 0) (at_cell c i);
  Ok (add_point k p).
Definition to_cloud (c : cube) (found : list (nat * nat * nat)) : result cloud :=
  do m <- list_max (range_bins c);
  fold_left (add_cell c) found (make_cloud m).

(** scipy's maximum_filter with the structure of connectivity one (detection.py:390-391): the
    cell and its six face neighbours; at the border the reflecting mode repeats the cell itself *)
Definition neighbours (c : cube) (i : nat * nat * nat) : list (nat * nat * nat) :=
  let '(a, d, r) := i in
  let up n k := if (S k <? n)%nat then S k else k in
  [(a, d, r); (pred a, d, r); (up (na c) a, d, r); (a, pred d, r); (a, up (nd c) d, r); (a, d, pred r); (a, d, up (nr c) r)].
Definition is_peak (c : cube) (value : nat * nat * nat -> R) (i : nat * nat * nat) : bool :=
  match list_max (map value (neighbours c i)) with
  | Ok m => if Req_EM_T m (value i) then true else false
  | Raise _ => false
  end.

(** ThresholdDetector (detection.py:314-412) *)
Record threshold := mkThr { min_power : R; normalize : bool; peak_detection : bool }.
Definition make_threshold (m : R) (n p : bool) : result threshold :=
  if Rleb m 0 then Raise ValueError else Ok (mkThr m n p).
Definition cube_data (t : threshold) (c : cube) : result (nat * nat * nat -> R) :=
  do mx <- list_max (map (at_cell c) (cells c));
  do mn <- list_min (map (at_cell c) (cells c));
  Ok (if normalize t && Rltb 0 mx then fun i => (at_cell c i - mn) / mx else at_cell c).
Definition threshold_cells (t : threshold) (c : cube) : result (list (nat * nat * nat)) :=
  do value <- cube_data t c;
  Ok (filter (fun i => (negb (peak_detection t) || is_peak c value i) && Rleb (min_power t) (value i)) (cells c)).
Definition detect_threshold (t : threshold) (c : cube) : result cloud :=
  do found <- threshold_cells t c;
  to_cloud c found.

(** MaxDetector.detect (detection.py:435-455): numpy's argmax returns the first maximum; the
    angles are handed over in the order of the bins, azimuth first, to FromSpherical, whose
    first parameter is the zenith *)
Definition argmax (c : cube) : result (nat * nat * nat) :=
  match cells c with
  | [] => Raise ValueError
  | x :: l => Ok (fold_left (fun b i => if Rltb (at_cell c b) (at_cell c i) then i else b) l x)
  end.
Definition detect_max (c : cube) : result cloud :=
  do i <- argmax c;
  let '(a, d, r) := i in
  if Rleb (at_cell c i) 0 then do m <- list_max (range_bins c); make_cloud m
  else
    do v <- velocity_bins c;
    do m <- list_max (range_bins c);
    do k <- make_cloud m;
    let '(a0, a1) := nth a (angle_bins c) (0, 0) in
    do p <- from_spherical a0 a1 (nth r (range_bins c) 0) (nth d v 0) (at_cell c i);
    Ok (add_point k p).

(** CFARDetector (detection.py:505-632) *)
Record cfar := mkCfar { training : nat * nat; guard : nat * nat; pfa : R }.
Definition make_cfar (t g : nat * nat) (p : R) : result cfar :=
  if ((fst t =? 0) || (snd t =? 0))%nat then Raise ValueError
  else if Rltb p 0 || Rltb 1 p then Raise ValueError
  else Ok (mkCfar t g p).
Definition window_x (f : cfar) : nat := (2 * fst (training f) + 2 * fst (guard f) + 1)%nat.
Definition window_y (f : cfar) : nat := (2 * snd (training f) + 2 * snd (guard f) + 1)%nat.
(** detection.py:601-606: ones, and zeros in the slices [t0:-t0, t1:-t1] *)
Definition kernel (f : cfar) (p q : nat) : R :=
  if ((fst (training f) <=? p) && (p <? window_x f - fst (training f)) &&
      (snd (training f) <=? q) && (q <? window_y f - snd (training f)))%nat
  then 0 else 1.
Fixpoint sumn (n : nat) (f : nat -> R) : R := match n with O => 0 | S m => sumn m f + f m end.
(** scipy.signal.convolve of a tensor of the cube's shape with the kernel, mode "same": the
    central part of the full convolution, the tensor being zero outside its shape *)
Definition padded (n m : nat) (x : nat -> nat -> R) (shift_i shift_j p q : nat) : R :=
  if ((p <=? shift_i) && (shift_i - p <? n) && (q <=? shift_j) && (shift_j - q <? m))%nat
  then x (shift_i - p)%nat (shift_j - q)%nat else 0.
Definition convolve (f : cfar) (n m : nat) (x : nat -> nat -> R) (i j : nat) : R :=
  let ci := ((window_x f - 1) / 2)%nat in
  let cj := ((window_y f - 1) / 2)%nat in
  sumn (window_x f) (fun p => sumn (window_y f) (fun q => kernel f p q * padded n m x (i + ci) (j + cj) p q)).
(** detection.py:608-618; for a false alarm probability of zero numpy's threshold factor is
    infinite, so that no comparison holds *)
Definition detected (f : cfar) (c : cube) (idx : nat * nat * nat) : bool :=
  let '(a, d, r) := idx in
  if Req_EM_T (pfa f) 0 then false
  else
    let noise := convolve f (nd c) (nr c) (data c a) d r in
    let count := convolve f (nd c) (nr c) (fun _ _ => 1) d r in
    Rltb (Rabs noise * (Rpower (pfa f) (- 1 / count) - 1)) (Rabs (data c a d r)).
Definition cfar_cells (f : cfar) (c : cube) : result (list (nat * nat * nat)) :=
  if ((nd c <? window_x f) || (nr c <? window_y f))%nat then Raise ValueError
  else Ok (filter (detected f c) (cells c)).
Definition detect_cfar (f : cfar) (c : cube) : result cloud :=
  do found <- cfar_cells f c;
  to_cloud c found.
