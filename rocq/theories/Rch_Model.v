(** Radar channels: the paths echoes and interference take, and the propagation of signals over them, with exact arithmetic.
    Models hermespy/channel/radar/radar.py: RadarChannelSample (47-194), RadarPath (242-442), RadarTargetPath (457-590),
    RadarInterferencePath (615-655).
    Simplifications: floating point numbers are real numbers; the array of a device is placed at the device's pose; bandwidths are positive
    and cross sections are not negative (the setters refuse other values); signal blocks and channel states are those of Chan_Model. *)
From Coq Require Import List Reals ZArith Bool Arith.
From Coquelicot Require Import Complex.
From Verif Require Import Base Cplx Rot_Model Ant_Model Chan_Model.
Import ListNotations.
Open Scope R_scope.

(** DeviceState (core/state.py 296-401): velocity, antennas and pose *)
Record device := Dev { velocity : vec; arr : array }.
Definition position (d : device) : vec := translation (base (arr d)).
Definition num_transmit (d : device) : nat := length (select TX (antennas (arr d))).
Definition num_receive (d : device) : nat := length (select RX (antennas (arr d))).

(** RadarTargetPath (460-492) and RadarInterferencePath *)
Inductive path :=
| TargetPath (p v : vec) (cross_section phase : R) (attenuate static : bool)
| InterferencePath (attenuate static : bool).
Definition is_static (p : path) : bool := match p with TargetPath _ _ _ _ _ s => s | InterferencePath _ s => s end.

(** propagation_delay (534-541, 623-625) *)
Definition propagation_delay (p : path) (tx rx : device) : R :=
  match p with
  | TargetPath q _ _ _ _ _ => (norm (vsub q (position tx)) + norm (vsub (position rx) q)) / speed_of_light
  | InterferencePath _ _ => norm (vsub (position rx) (position tx)) / speed_of_light
  end.
(** relative_velocity (543-559, 627-631): directions of length zero cannot be normalised *)
Definition relative_velocity (p : path) (tx rx : device) : result R :=
  match p with
  | TargetPath q v _ _ _ _ =>
      do e <- from_cartesian (vsub q (position tx)) true;
      do i <- from_cartesian (vsub (position rx) q) true;
      Ok (dot e (vsub v (velocity tx)) + dot i (vsub (velocity rx) v))
  | InterferencePath _ _ =>
      do c <- from_cartesian (vsub (position rx) (position tx)) true;
      Ok (dot (vsub (velocity tx) (velocity rx)) c)
  end.

(** Matrices of responses *)
Record cmatrix := CM { m_rows : nat; m_cols : nat; m_at : nat -> nat -> C }.
(** np.inner of two array responses (589, 655) *)
Definition inner (a b : list (C * (R * R))) : cmatrix :=
  let z := (RtoC 0, (0, 0)) in
  CM (length a) (length b) (fun i j =>
    let '(p, (u, v)) := nth i a z in let '(q, (w, y)) := nth j b z in (p * q * RtoC (u * w + v * y))%C).
Definition mscale (k : C) (m : cmatrix) : cmatrix := CM (m_rows m) (m_cols m) (fun i j => (k * m_at m i j)%C).
(** The amplitude factors (572-583, 644-652); a carrier frequency of zero is divided by *)
Definition amplitude (p : path) (tx rx : device) (carrier : R) : result R :=
  match p with
  | TargetPath q _ cs _ att _ =>
      if att then
        if Req_EM_T carrier 0 then Raise ZeroDivisionError
        else Ok (speed_of_light / carrier * sqrt cs / (Rpower (4 * PI) (3 / 2) * norm (vsub q (position tx)) * norm (vsub (position rx) q)))
      else Ok 1
  | InterferencePath att _ =>
      if att then
        if Req_EM_T carrier 0 then Raise ZeroDivisionError
        else Ok (speed_of_light / carrier / (4 * PI * norm (vsub (position rx) (position tx))))
      else Ok 1
  end.
(** propagation_response (561-590, 633-655): interference is received by all antennas and transmitted by all antennas, whatever their mode *)
Definition propagation_response (p : path) (tx rx : device) (carrier : R) : result cmatrix :=
  match p with
  | TargetPath q _ _ phase _ _ =>
      do r <- cartesian_array_response (arr rx) carrier q Global RX;
      do t <- cartesian_array_response (arr tx) carrier q Global TX;
      do a <- amplitude p tx rx carrier;
      Ok (mscale (RtoC a * cis phase)%C (inner r t))
  | InterferencePath _ _ =>
      do r <- cartesian_array_response (arr rx) carrier (position tx) Global DUPLEX;
      do t <- cartesian_array_response (arr tx) carrier (position rx) Global DUPLEX;
      do a <- amplitude p tx rx carrier;
      Ok (mscale (RtoC a) (inner r t))
  end.

(** int() of a delay in samples, which is not negative (391, 430) *)
Definition whole (r : R) : nat := Z.to_nat (Int_part r).
(** 392, 397, 434, 438 *)
Definition doppler_shift (v carrier : R) : R := v * carrier / speed_of_light.
Definition echo_weight (shift time bandwidth : R) (i : nat) : C := cis (2 * PI * (shift * (time + INR i / bandwidth))).
(** numpy's rule for two dimensions that are combined *)
Definition compatible (a b : nat) : bool := (Nat.eqb a b || Nat.eqb a 1)%bool.
Definition only (n i : nat) : nat := if Nat.eqb n 1 then 0%nat else i.

(** add_propagation (346-401): a slice that ends beyond the array is shorter, and the echo must fit into it *)
Definition add_propagation (p : path) (tx rx : device) (s : blk) (bandwidth carrier time : R) (total : nat) (delay v : R) (acc : nat -> nat -> C)
  : result (nat -> nat -> C) :=
  do h <- propagation_response p tx rx carrier;
  let n := samples s in
  let o := whole (delay * bandwidth) in
  let width := (Nat.min (o + n) total - Nat.min o total)%nat in
  if negb (compatible (m_cols h) (streams s) || Nat.eqb (streams s) 1)%bool then Raise ValueError
  else if negb (compatible (m_rows h) (num_receive rx)) then Raise ValueError
  else if negb (Nat.eqb n width || Nat.eqb n 1)%bool then Raise ValueError
  else Ok (fun r k =>
    if (Nat.leb o k && Nat.ltb k (o + width))%bool
    then (acc r k + csum (fun j => m_at h (only (m_rows h) r) (only (m_cols h) j) * x s (only (streams s) j) (k - o)%nat
                                   * echo_weight (doppler_shift v carrier) time bandwidth (k - o))%C
                         (if Nat.eqb (m_cols h) 1 then streams s else m_cols h))%C
    else acc r k).
(** Samples added to the signal (102-108): the maxima of the delays and of the velocities *)
Definition maximum (l : list R) : R := match l with [] => 0 | a :: r => fold_left Rmax r a end.
Definition overhead (ds vs : list R) (bandwidth : R) (n : nat) : Z :=
  match ds with
  | [] => 0%Z
  | _ => (- Int_part (- (maximum ds * bandwidth + 2 * maximum vs * INR n / (bandwidth * speed_of_light))))%Z
  end.
(** _propagate (87-137) *)
Definition propagate (ps : list path) (gain : R) (tx rx : device) (bandwidth carrier time : R) (s : blk) : result blk :=
  let ds := map (fun p => propagation_delay p tx rx) ps in
  do vs <- mapM (fun p => relative_velocity p tx rx) ps;
  let total := (Z.of_nat (samples s) + overhead ds vs bandwidth (samples s))%Z in
  if (total <? 0)%Z then Raise ValueError
  else
    do y <- fold_left (fun acc q => do a <- acc; add_propagation (fst q) tx rx s bandwidth carrier time (Z.to_nat total) (fst (snd q)) (snd (snd q)) a)
              (combine ps (combine ds vs)) (Ok (fun _ _ => RtoC 0));
    Ok (Blk (num_receive rx) (Z.to_nat total) (offset s) (fun r k => (y r k * RtoC (sqrt gain))%C)).

(** add_state (403-442) *)
Definition add_state (p : path) (tx rx : device) (bandwidth carrier time : R) (taps : nat) (acc : nat -> nat -> nat -> nat -> C)
  : result (nat -> nat -> nat -> nat -> C) :=
  do v <- relative_velocity p tx rx;
  do h <- propagation_response p tx rx carrier;
  let o := whole (propagation_delay p tx rx * bandwidth) in
  if Nat.leb taps o then Ok acc
  else if negb (compatible (m_rows h) (num_receive rx) && compatible (m_cols h) (num_transmit tx))%bool then Raise ValueError
  else Ok (fun r t i k =>
    if Nat.eqb k o then (acc r t i k + m_at h (only (m_rows h) r) (only (m_cols h) t) * echo_weight (doppler_shift v carrier) time bandwidth i)%C
    else acc r t i k).
(** state (139-170) *)
Definition state (ps : list path) (gain : R) (tx rx : device) (bandwidth carrier time : R) (num_samples taps : nat) : result csi :=
  do raw <- fold_left (fun acc p => do a <- acc; add_state p tx rx bandwidth carrier time taps a) ps (Ok (fun _ _ _ _ => RtoC 0));
  Ok (impulse_csi (num_receive rx) (num_transmit tx) num_samples taps (fun r t i k => (raw r t i k * RtoC (sqrt gain))%C)).

(** null_hypothesis (172-194): the static paths, at time zero *)
Definition null_paths (ps : list path) : list path := filter is_static ps.
Definition null_propagate (ps : list path) (gain : R) (tx rx : device) (bandwidth carrier time : R) (s : blk) : result blk :=
  propagate (null_paths ps) gain tx rx bandwidth carrier 0 s.
