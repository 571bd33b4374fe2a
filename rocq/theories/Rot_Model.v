(** Coordinate transformations and directions, with exact real arithmetic.
    Models hermespy/core/transformation.py: Direction (24-123), Transformation (126-491).
    A transformation is kept as its upper three rows: a 3x3 matrix and a translation; the last row is (0, 0, 0, 1) (327, 353, 369, 489).
    Floating point numbers are replaced by real numbers; np.linalg.inv by the cofactor formula. *)
From Coq Require Import List Reals.
From Verif Require Import Base.
Import ListNotations.
Open Scope R_scope.

Record vec := V { vx : R; vy : R; vz : R }.
Record mat := M { m00 : R; m01 : R; m02 : R; m10 : R; m11 : R; m12 : R; m20 : R; m21 : R; m22 : R }.
Record transformation := mkT { rotation : mat; translation : vec }.

(** Matrix and vector arithmetic of numpy *)
Definition vadd (a b : vec) : vec := V (vx a + vx b) (vy a + vy b) (vz a + vz b).
Definition vsub (a b : vec) : vec := V (vx a - vx b) (vy a - vy b) (vz a - vz b).
Definition vscale (k : R) (a : vec) : vec := V (k * vx a) (k * vy a) (k * vz a).
Definition dot (a b : vec) : R := vx a * vx b + vy a * vy b + vz a * vz b.
Definition cross (a b : vec) : vec := V (vy a * vz b - vz a * vy b) (vz a * vx b - vx a * vz b) (vx a * vy b - vy a * vx b).
Definition norm (a : vec) : R := sqrt (dot a a).
Definition mv (a : mat) (v : vec) : vec :=
  V (m00 a * vx v + m01 a * vy v + m02 a * vz v) (m10 a * vx v + m11 a * vy v + m12 a * vz v) (m20 a * vx v + m21 a * vy v + m22 a * vz v).
Definition mm (a b : mat) : mat :=
  M (m00 a * m00 b + m01 a * m10 b + m02 a * m20 b) (m00 a * m01 b + m01 a * m11 b + m02 a * m21 b) (m00 a * m02 b + m01 a * m12 b + m02 a * m22 b)
    (m10 a * m00 b + m11 a * m10 b + m12 a * m20 b) (m10 a * m01 b + m11 a * m11 b + m12 a * m21 b) (m10 a * m02 b + m11 a * m12 b + m12 a * m22 b)
    (m20 a * m00 b + m21 a * m10 b + m22 a * m20 b) (m20 a * m01 b + m21 a * m11 b + m22 a * m21 b) (m20 a * m02 b + m21 a * m12 b + m22 a * m22 b).
Definition det (a : mat) : R :=
  m00 a * (m11 a * m22 a - m12 a * m21 a) - m01 a * (m10 a * m22 a - m12 a * m20 a) + m02 a * (m10 a * m21 a - m11 a * m20 a).
Definition minv (a : mat) : mat :=
  let d := det a in
  M ((m11 a * m22 a - m12 a * m21 a) / d) ((m02 a * m21 a - m01 a * m22 a) / d) ((m01 a * m12 a - m02 a * m11 a) / d)
    ((m12 a * m20 a - m10 a * m22 a) / d) ((m00 a * m22 a - m02 a * m20 a) / d) ((m02 a * m10 a - m00 a * m12 a) / d)
    ((m10 a * m21 a - m11 a * m20 a) / d) ((m01 a * m20 a - m00 a * m21 a) / d) ((m00 a * m11 a - m01 a * m10 a) / d).
Definition eye : mat := M 1 0 0 0 1 0 0 0 1.
Definition zero : vec := V 0 0 0.

(** np.arctan2 *)
Definition atan2 (y x : R) : R :=
  if Rlt_dec 0 x then atan (y / x)
  else if Rlt_dec x 0 then (if Rle_dec 0 y then atan (y / x) + PI else atan (y / x) - PI)
  else if Rlt_dec 0 y then PI / 2
  else if Rlt_dec y 0 then - (PI / 2)
  else 0.

(** No (259-261), the product of matrices, invert (435-441) *)
Definition no_transformation : transformation := mkT eye zero.
Definition compose (a b : transformation) : transformation :=
  mkT (mm (rotation a) (rotation b)) (vadd (mv (rotation a) (translation b)) (translation a)).
Definition invert (a : transformation) : transformation :=
  mkT (minv (rotation a)) (vscale (-1) (mv (minv (rotation a)) (translation a))).

(** _rotation_from_rpy (265-294): roll, pitch, yaw *)
Definition rotation_from_rpy (p : vec) : mat :=
  M (cos (vz p) * cos (vy p)) (cos (vz p) * sin (vy p) * sin (vx p) - sin (vz p) * cos (vx p)) (cos (vz p) * sin (vy p) * cos (vx p) + sin (vz p) * sin (vx p))
    (sin (vz p) * cos (vy p)) (sin (vz p) * sin (vy p) * sin (vx p) + cos (vz p) * cos (vx p)) (sin (vz p) * sin (vy p) * cos (vx p) - cos (vz p) * sin (vx p))
    (- sin (vy p)) (cos (vy p) * sin (vx p)) (cos (vy p) * cos (vx p)).
Definition From_RPY (rpy pos : vec) : transformation := mkT (rotation_from_rpy rpy) pos.
(** rotation_rpy (141-158) *)
Definition rotation_rpy (a : mat) : vec :=
  let c := sqrt (m00 a ^ 2 + m10 a ^ 2) in
  if Req_EM_T c 0 then V (atan2 (m01 a) (m11 a)) (1 / 2 * PI) 0
  else V (atan2 (m21 a / c) (m22 a / c)) (atan2 (- m20 a) c) (atan2 (m10 a / c) (m00 a / c)).

(** Quaternions (real part first): _rotation_from_quaternion (164-197), rotation_quaternion (199-253) *)
Record quaternion := Q4 { q0 : R; q1 : R; q2 : R; q3 : R }.
Definition qnorm (q : quaternion) : R := sqrt (q0 q ^ 2 + q1 q ^ 2 + q2 q ^ 2 + q3 q ^ 2).
Definition qscale (k : R) (q : quaternion) : quaternion := Q4 (q0 q * k) (q1 q * k) (q2 q * k) (q3 q * k).
Definition rotation_from_quaternion (v : quaternion) (normalize : bool) : mat :=
  let q := if normalize then qscale (/ qnorm v) v else v in
  M (1 - 2 * (q2 q ^ 2 + q3 q ^ 2)) (2 * (q1 q * q2 q - q0 q * q3 q)) (2 * (q0 q * q2 q + q1 q * q3 q))
    (2 * (q1 q * q2 q + q0 q * q3 q)) (1 - 2 * (q1 q ^ 2 + q3 q ^ 2)) (2 * (q2 q * q3 q - q0 q * q1 q))
    (2 * (q1 q * q3 q - q0 q * q2 q)) (2 * (q0 q * q1 q + q2 q * q3 q)) (1 - 2 * (q1 q ^ 2 + q2 q ^ 2)).
Definition rotation_quaternion (a : mat) : quaternion :=
  let tr := m00 a + m11 a + m22 a in
  if Rlt_dec 0 tr then
    let s := 2 * sqrt (tr + 1) in
    Q4 ((1 / 4) / s) ((m21 a - m12 a) / s) ((m02 a - m20 a) / s) ((m10 a - m01 a) / s)
  else if Rlt_dec (m11 a) (m00 a) then
    if Rlt_dec (m22 a) (m00 a) then
      let s := 2 * sqrt (1 + m00 a - m11 a - m22 a) in
      Q4 ((m21 a - m12 a) / s) ((1 / 4) / s) ((m01 a + m10 a) / s) ((m02 a + m20 a) / s)
    else if Rlt_dec (m22 a) (m11 a) then
      let s := 2 * sqrt (1 + m11 a - m00 a - m22 a) in
      Q4 ((m02 a - m20 a) / s) ((m01 a + m10 a) / s) ((1 / 4) / s) ((m12 a + m21 a) / s)
    else
      let s := 2 * sqrt (1 + m22 a - m00 a - m11 a) in
      Q4 ((m10 a - m01 a) / s) ((m02 a + m20 a) / s) ((m12 a + m21 a) / s) ((1 / 4) / s)
  else if Rlt_dec (m22 a) (m11 a) then
    let s := 2 * sqrt (1 + m11 a - m00 a - m22 a) in
    Q4 ((m02 a - m20 a) / s) ((m01 a + m10 a) / s) ((1 / 4) / s) ((m12 a + m21 a) / s)
  else
    let s := 2 * sqrt (1 + m22 a - m00 a - m11 a) in
    Q4 ((m10 a - m01 a) / s) ((m02 a + m20 a) / s) ((m12 a + m21 a) / s) ((1 / 4) / s).
Definition From_Quaternion (q : quaternion) (pos : vec) (normalize : bool) : transformation := mkT (rotation_from_quaternion q normalize) pos.

(** transform_position (377-399) of a vector with up to three components *)
Definition transform_position (a : transformation) (l : list R) : result (list R) :=
  if Nat.ltb 3 (length l) then Raise ValueError
  else let v := V (nth 0 l 0) (nth 1 l 0) (nth 2 l 0) in
       let r := vadd (mv (rotation a) v) (translation a) in
       Ok (firstn (length l) [vx r; vy r; vz r]).
(** rotate_direction (401-419) of a vector with three components *)
Definition rotate_direction (a : transformation) (v : vec) : vec := mv (rotation a) v.
(** From_Cartesian (94-123) of a vector with three components *)
Definition from_cartesian (v : vec) (normalize : bool) : result vec :=
  if normalize then (if Req_EM_T (norm v) 0 then Raise ValueError else Ok (vscale (/ norm v) v)) else Ok v.
(** transform_direction (421-433) *)
Definition transform_direction (a : transformation) (v : vec) (normalize : bool) : result vec := from_cartesian (rotate_direction a v) normalize.

(** Spherical coordinates (27-63, 65-92): azimuth and zenith *)
Definition From_Spherical (azimuth zenith : R) : vec := V (sin zenith * cos azimuth) (sin zenith * sin azimuth) (cos zenith).
Definition to_spherical (v : vec) : R * R := (atan2 (vy v) (vx v), acos (vz v)).

(** lookat (443-491) *)
Definition lookat (a : transformation) (target up : vec) : transformation :=
  let up := vscale (/ norm up) up in
  let pos := translation a in
  let f := vsub target pos in
  let f := if Req_EM_T (norm f) 0 then pos else vscale (/ norm f) f in
  let s := cross up f in
  let s := if Req_EM_T (norm s) 0 then up else vscale (/ norm s) s in
  let u := cross f s in
  mkT (M (vx s) (vx u) (vx f) (vy s) (vy u) (vy f) (vz s) (vz u) (vz f)) pos.
