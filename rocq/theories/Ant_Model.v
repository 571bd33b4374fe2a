(** Antennas and antenna arrays, with exact real arithmetic.
    Models hermespy/core/antennas.py: the antenna types (392-622), Antenna.global_characteristics (138-210), AntennaArrayBase (625-1141),
    AntennaArrayState.select_subarray (1185-1220), UniformArray (1299-1410).
    Simplifications: floating point numbers are real numbers; the coordinate frames are those of Rot_Model, the cached chain of frames is
    the subject of Kin_Model, so an antenna's pose in the scene is the composition of the array's pose and its own; the antenna weights of
    simulation/antennas.py are not part of an antenna here. *)
From Coq Require Import List Reals ZArith Bool.
From Coquelicot Require Import Complex.
From Verif Require Import Base Cplx Rot_Model.
Import ListNotations.
Open Scope R_scope.

(** AntennaMode (32-43) *)
Inductive mode := TX | RX | DUPLEX.
Definition mode_eqb (a b : mode) : bool := match a, b with TX, TX | RX, RX | DUPLEX, DUPLEX => true | _, _ => false end.

(** The antenna types; [local_characteristics] (435-436, 509-510, 556-560, 610-614) maps azimuth and second angle to the two field components.
    global_characteristics (156) passes the zenith as second angle. *)
Inductive kind := Ideal | Linear (slant : R) | Patch | Dipole.
Definition local_characteristics (k : kind) (azimuth elevation : R) : R * R :=
  match k with
  | Ideal => (/ sqrt 2, / sqrt 2)
  | Linear s => (cos s, sin s)
  | Patch => (Rmax (1 / 10) ((1 / 10 + 9 / 10 * exp (- (1315 / 1000) * azimuth ^ 2)) * cos elevation ^ 2), 0)
  | Dipole => ((if Req_EM_T elevation 0 then 0 else cos (1 / 2 * PI * cos elevation) / sin elevation), 0)
  end.

(** An antenna (50-136): its mode, its kind and its pose within the array *)
Record antenna := A { amode : mode; akind : kind; apose : transformation }.
(** An array (625-): its pose in the scene and its antennas *)
Record array := mkArray { base : transformation; antennas : list antenna }.

(** Unit vectors of increasing zenith and azimuth (163-187) *)
Definition azimuth_unit (azimuth : R) : vec := V (- sin azimuth) (cos azimuth) 0.
Definition zenith_unit (azimuth zenith : R) : vec := V (cos zenith * cos azimuth) (cos zenith * sin azimuth) (- sin zenith).

(** forwards_transformation of an antenna of an array: core/transformation.py 643-657 *)
Definition forwards (arr : array) (a : antenna) : transformation := compose (base arr) (apose a).

(** Antenna.global_characteristics (138-210); [t] is the antenna's forwards_transformation *)
Definition global_characteristics (k : kind) (t : transformation) (direction : vec) : R * R :=
  let local := rotate_direction (invert t) direction in
  let '(al, zl) := to_spherical local in
  let '(ct, ca) := local_characteristics k al zl in
  let '(ag, zg) := to_spherical direction in
  let lz := mv (rotation t) (zenith_unit al zl) in
  let la := mv (rotation t) (azimuth_unit al) in
  (dot (zenith_unit ag zg) lz * ct + dot (zenith_unit ag zg) la * ca,
   dot (azimuth_unit ag) lz * ct + dot (azimuth_unit ag) la * ca).

(** transmit_antennas, receive_antennas (1173-1183, 1273-1283) *)
Definition select (m : mode) (l : list antenna) : list antenna :=
  match m with
  | DUPLEX => l
  | TX => filter (fun a => negb (mode_eqb (amode a) RX)) l
  | RX => filter (fun a => negb (mode_eqb (amode a) TX)) l
  end.

(** The image of a point under a transformation, with the homogeneous coordinate one (680-685) *)
Definition apply (t : transformation) (v : vec) : vec := vadd (mv (rotation t) v) (translation t).
(** topology, transmit_topology, receive_topology (664-729) *)
Definition topology (arr : array) (m : mode) : list vec :=
  map (fun a => apply (invert (base arr)) (translation (forwards arr a))) (select m (antennas arr)).

(** scipy.constants.speed_of_light *)
Definition speed_of_light : R := 299792458.

Inductive frame := Local | Global.
(** cartesian_phase_response (883-952) of a three-dimensional position *)
Definition cartesian_phase_response (arr : array) (carrier : R) (position : vec) (f : frame) (m : mode) : list C :=
  let p := match f with Global => apply (invert (base arr)) position | Local => position end in
  map (fun t => cis (- (2 * PI * carrier * norm (vsub t p) / speed_of_light))) (topology arr m).
(** horizontal_phase_response (1002-1071), spherical_phase_response (1073-1141) *)
Definition plane_phases (arr : array) (carrier : R) (k : vec) (m : mode) : list C :=
  map (fun t => cis (2 * PI * carrier * dot k t / speed_of_light)) (topology arr m).
Definition horizontal_phase_response (arr : array) (carrier azimuth elevation : R) (m : mode) : list C :=
  plane_phases arr carrier (V (cos azimuth * cos elevation) (sin azimuth * cos elevation) (sin elevation)) m.
Definition spherical_phase_response (arr : array) (carrier azimuth zenith : R) (m : mode) : list C :=
  plane_phases arr carrier (V (cos azimuth * sin zenith) (sin azimuth * sin zenith) (cos zenith)) m.

(** characteristics (797-836): the argument is a location or a direction *)
Inductive target := Location (v : vec) | Towards (v : vec).
Definition characteristics (arr : array) (x : target) (m : mode) (f : frame) : result (list (R * R)) :=
  do d <- match x, f with
          | Location v, Global => from_cartesian (vsub v (translation (base arr))) true
          | Location v, Local => from_cartesian v true
          | Towards v, Global => Ok v
          | Towards v, Local => transform_direction (base arr) v false
          end;
  Ok (map (fun a => global_characteristics (akind a) (forwards arr a) d) (select m (antennas arr))).
(** cartesian_array_response (954-1000): one phase times two field components per antenna *)
Definition cartesian_array_response (arr : array) (carrier : R) (position : vec) (f : frame) (m : mode) : result (list (C * (R * R))) :=
  do c <- characteristics arr (Location position) m f;
  Ok (combine (cartesian_phase_response arr carrier position f m) c).

(** select_subarray (1185-1220) with a list of indices, which count from the end if negative *)
Definition pick {B} (l : list B) (i : Z) : result B :=
  let j := if (i <? 0)%Z then (i + Z.of_nat (length l))%Z else i in
  if (j <? 0)%Z then Raise IndexError
  else match nth_error l (Z.to_nat j) with Some x => Ok x | None => Raise IndexError end.
Definition select_subarray (arr : array) (indices : list Z) (m : mode) : result array :=
  do l <- mapM (pick (select m (antennas arr))) indices;
  Ok (mkArray (base arr) l).

(** UniformArray (1299-1410): the element, spacing, dimensions and generated antennas *)
Record uniform := U { u_element : antenna; u_spacing : R; u_dimensions : Z * Z * Z; u_antennas : list antenna }.
(** numpy.arange of an integer *)
Definition arange (n : Z) : list nat := seq 0 (Z.to_nat n).
(** __update_elements (1341-1355): numpy.meshgrid with its default indexing lists the second axis first; only the position of
    the copied element's pose is replaced *)
Definition grid_points (d : Z * Z * Z) : list (nat * nat * nat) :=
  let '(nx, ny, nz) := d in
  flat_map (fun y => flat_map (fun x => map (fun z => (x, y, z)) (arange nz)) (arange nx)) (arange ny).
Definition place (element : antenna) (spacing : R) (p : nat * nat * nat) : antenna :=
  let '(x, y, z) := p in
  A (amode element) (akind element) (mkT (rotation (apose element)) (V (spacing * INR x) (spacing * INR y) (spacing * INR z))).
Definition update_elements (u : uniform) : uniform :=
  U (u_element u) (u_spacing u) (u_dimensions u) (map (place (u_element u) (u_spacing u)) (grid_points (u_dimensions u))).
(** spacing setter (1369-1375) *)
Definition set_spacing (u : uniform) (v : R) : result uniform :=
  if Rle_dec v 0 then Raise ValueError
  else Ok (update_elements (U (u_element u) v (u_dimensions u) (u_antennas u))).
(** dimensions setter (1392-1410), for up to three and at least one entry *)
Definition set_dimensions (u : uniform) (v : list Z) : result uniform :=
  match v with
  | [a] => Ok (update_elements (U (u_element u) (u_spacing u) (a, 1, 1)%Z (u_antennas u)))
  | [a; b] => Ok (update_elements (U (u_element u) (u_spacing u) (a, b, 1)%Z (u_antennas u)))
  | [a; b; c] => Ok (update_elements (U (u_element u) (u_spacing u) (a, b, c) (u_antennas u)))
  | [] => Raise IndexError
  | _ => Raise ValueError
  end.
(** __init__ (1307-1339) *)
Definition create_uniform (element : antenna) (spacing : R) (dimensions : list Z) : result uniform :=
  do u <- set_spacing (U element 0 (0, 0, 0)%Z []) spacing;
  set_dimensions u dimensions.
(** num_antennas (1382-1384) *)
Definition num_antennas (u : uniform) : Z := let '(x, y, z) := u_dimensions u in (x * y * z)%Z.
