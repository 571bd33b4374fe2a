(** Beamformers, with exact complex arithmetic.
    Models hermespy/beamforming: beamformer.py (SphericalFocus 73-137, CoordinateFocus 140-207, TransmitBeamformer.encode_streams 266-345,
    ReceiveBeamformer.decode_streams 523-595, probe 597-621), conventional.py, capon.py, nullsteeringbeamformer.py.
    A signal block is a list of streams, each a list of complex samples; sampling rate, carrier, delay and offsets of a signal are
    passed on unchanged (333-345, 583-595) and not part of the model.  np.linalg.inv and scipy.linalg.pinvh are arguments of the model. *)
From Coq Require Import List Reals ZArith Bool.
From Coquelicot Require Import Complex.
From Verif Require Import Base Cplx Rot_Model Ant_Model.
Import ListNotations.
Open Scope R_scope.

Definition block := list (list C).
Definition width (x : block) : nat := length (nth 0 x []).

(** Focus points (73-207): two angles, or a direction in one of the two frames *)
Inductive focus := Spherical (azimuth zenith : R) | Coordinate (direction : vec) (reference : frame).
Definition spherical_angles (arr : array) (f : focus) : R * R :=
  match f with
  | Spherical a z => (a, z)
  | Coordinate d Local => to_spherical d
  | Coordinate d Global => to_spherical (rotate_direction (invert (base arr)) d)
  end.

(** Products of a row of weights with the streams of a block, of a column of weights with one stream: numpy's matmul *)
Definition weigh (w : list C) (x : block) : result (list C) :=
  if Nat.eqb (length w) (length x) then Ok (tab (width x) (fun t => csum (fun n => at0 w n * at2 x n t)%C (length w))) else Raise ValueError.
Definition spread (w : list C) (x : block) : result block :=
  match x with [s] => Ok (map (fun k => map (fun v => (k * v)%C) s) w) | _ => Raise ValueError end.

(** conventional.py: the weights towards an angle, from positions relative to the array's origin along the axes of the scene (79-91, 104-111) *)
Definition steering (arr : array) (carrier : R) (angle : R * R) (m : mode) : list C :=
  let direction := From_Spherical (fst angle) (snd angle) in
  map (fun a => cis (- (2 * PI * carrier / speed_of_light * dot (vsub (translation (forwards arr a)) (translation (base arr))) direction)))
    (select m (antennas arr)).
(** _encode (95-117) *)
Definition conventional_encode (arr : array) (carrier : R) (angle : R * R) (x : block) : result block :=
  spread (steering arr carrier angle TX) x.
(** _decode (120-129) for a list of angles *)
Definition conventional_decode (arr : array) (carrier : R) (angles : list (R * R)) (x : block) : result (list (list C)) :=
  mapM (fun angle => let w := steering arr carrier angle RX in
                     weigh (map (fun c => (c / RtoC (INR (length w)))%C) w) x) angles.

(** capon.py 72-99.  [inv n m] inverts the n by n matrix m or raises an error *)
Definition covariance (x : block) (loading : R) (i j : nat) : C :=
  (csum (fun t => at2 x i t * conj (at2 x j t)) (width x) + if Nat.eqb i j then RtoC loading else RtoC 0)%C.
Definition capon_weights (n : nat) (p : nat -> nat -> C) (a : list C) : list C :=
  let pa i := csum (fun j => p i j * at0 a j)%C n in
  let g := csum (fun i => csum (fun j => conj (at0 a j) * p j i)%C n * at0 a i)%C n in
  tab n (fun i => (pa i / g)%C).
Definition capon_decode (inv : nat -> (nat -> nat -> C) -> result (nat -> nat -> C)) (loading : R)
    (arr : array) (carrier : R) (angles : list (R * R)) (x : block) : result (list (list C)) :=
  let n := length x in
  do p <- inv n (covariance x loading);
  mapM (fun angle =>
    let a := spherical_phase_response arr carrier (fst angle) (snd angle) RX in
    if Nat.eqb (length a) n then weigh (map conj (capon_weights n p a)) x else Raise ValueError) angles.

(** nullsteeringbeamformer.py 51-70.  [pinvh m] is the pseudo-inverse of the two by two matrix m; the responses are those of all antennas *)
Definition null_projection (pinvh : (nat -> nat -> C) -> nat -> nat -> C) (arr : array) (carrier : R) (a0 a1 a2 : R * R) (i : nat) : C :=
  let response a := spherical_phase_response arr carrier (fst a) (snd a) DUPLEX in
  let n := length (antennas arr) in
  let A i k := at0 (if Nat.eqb k 0 then response a1 else response a2) i in
  let x := pinvh (fun k l => csum (fun i => A i k * conj (A i l))%C n) in
  let pa i j := csum (fun l => csum (fun k => conj (A i k) * x k l) 2 * A j l)%C 2 in
  (at0 (response a0) i - csum (fun j => pa i j * at0 (response a0) j) n)%C.
Definition null_norm pinvh (arr : array) (carrier : R) (a0 a1 a2 : R * R) : R :=
  let w := null_projection pinvh arr carrier a0 a1 a2 in
  sqrt (fst (csum (fun i => w i * conj (w i))%C (length (antennas arr)))).
Definition null_weights pinvh (arr : array) (carrier : R) (a0 a1 a2 : R * R) : list C :=
  tab (length (antennas arr)) (fun i => (null_projection pinvh arr carrier a0 a1 a2 i / RtoC (null_norm pinvh arr carrier a0 a1 a2))%C).
(** _encode (72-85), _decode (87-101).  Assigning the weights to a column of the dictionary (98) repeats a single weight and
    refuses other numbers of weights than the number of receiving antennas *)
Definition null_encode pinvh (arr : array) (carrier : R) (a0 a1 a2 : R * R) (x : block) : result block :=
  spread (null_weights pinvh arr carrier a0 a1 a2) x.
Definition null_decode pinvh (arr : array) (carrier : R) (angles : list ((R * R) * (R * R) * (R * R))) (x : block) : result (list (list C)) :=
  let rx := length (select RX (antennas arr)) in
  mapM (fun '(a0, a1, a2) =>
    let w := null_weights pinvh arr carrier a0 a1 a2 in
    do c <- (if Nat.eqb (length w) rx then Ok w else if Nat.eqb (length w) 1 then Ok (repeat (at0 w 0) rx) else Raise ValueError);
    weigh c x) angles.

(** encode_streams (266-345) and decode_streams (523-595) of a beamformer with [points] focus points: the number of streams and of
    focus points is checked, every block is treated on its own *)
Definition encode_streams {A} (points : nat) (encode : list (R * R) -> block -> result A) (arr : array) (f : list focus) (streams : nat) (blocks : list block) : result (list A) :=
  if negb (Nat.eqb streams 1) then Raise ValueError
  else if negb (Nat.eqb (length f) points) then Raise ValueError
  else mapM (encode (map (spherical_angles arr) f)) blocks.
Definition decode_streams {A} (points : nat) (decode : list (R * R) -> block -> result A) (arr : array) (f : list focus) (blocks : list block) : result (list A) :=
  if negb (Nat.eqb (length f) points) then Raise ValueError
  else mapM (decode (map (spherical_angles arr) f)) blocks.

(** decode_streams and encode_streams of the three beamformers, at most three focus points *)
Definition angle (l : list (R * R)) (k : nat) : R * R := nth k l (0, 0).
Definition first (l : list (list C)) : block := [nth 0 l []].
Definition conventional_receive (arr : array) (carrier : R) (f : list focus) (blocks : list block) : result (list block) :=
  decode_streams 1 (fun angles x => do r <- conventional_decode arr carrier [angle angles 0] x; Ok (first r)) arr f blocks.
Definition conventional_transmit (arr : array) (carrier : R) (f : list focus) (streams : nat) (blocks : list block) : result (list block) :=
  encode_streams 1 (fun angles x => conventional_encode arr carrier (angle angles 0) x) arr f streams blocks.
Definition capon_receive inv loading (arr : array) (carrier : R) (f : list focus) (blocks : list block) : result (list block) :=
  decode_streams 1 (fun angles x => do r <- capon_decode inv loading arr carrier [angle angles 0] x; Ok (first r)) arr f blocks.
Definition null_receive pinvh (arr : array) (carrier : R) (f : list focus) (blocks : list block) : result (list block) :=
  decode_streams 3 (fun angles x => do r <- null_decode pinvh arr carrier [(angle angles 0, angle angles 1, angle angles 2)] x; Ok (first r)) arr f blocks.
Definition null_transmit pinvh (arr : array) (carrier : R) (f : list focus) (streams : nat) (blocks : list block) : result (list block) :=
  encode_streams 3 (fun angles x => null_encode pinvh arr carrier (angle angles 0) (angle angles 1) (angle angles 2) x) arr f streams blocks.
