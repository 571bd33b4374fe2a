(** Radar targets: the paths a single configured target and a set of targets contribute to a radar channel.
    Models hermespy/channel/radar/single.py: SingleTargetRadarChannel (201-445), SingleTargetRadarChannelRealization (30-133), and
    hermespy/channel/radar/multi.py: targets (43-92, 133-165, 182-228, 255-309), MultiTargetRadarChannelRealization (339-434),
    MultiTargetRadarChannel (470-586).
    Simplifications: floating point numbers are real numbers; draws of the spatially consistent random variables are parameters
    (Cons_Model covers them); serialization is not modelled here. *)
From Coq Require Import List Reals Bool Arith.
From Verif Require Import Base Rot_Model Rch_Model.
Import ListNotations.
Open Scope R_scope.

(** ** A single target *)
(** A number, a tuple or something else *)
Inductive arg := Scalar (v : R) | Tuple (l : list R) | Other.
(** A speed, a tuple of speeds or a vector *)
Inductive speed_arg := Speed (a : arg) | Vector (v : vec).
Record single := Single { s_range : arg; s_cross_section : R; s_azimuth : arg; s_zenith : arg; s_exists : bool; s_velocity : speed_arg;
  s_decorrelation : R; s_attenuate : bool }.
(** target_range setter (285-304) *)
Definition check_range (a : arg) : result arg :=
  match a with
  | Scalar v => if Rlt_dec v 0 then Raise ValueError else Ok a
  | Tuple [lo; hi] => if Rlt_dec hi lo then Raise ValueError else if Rlt_dec lo 0 then Raise ValueError else Ok a
  | Tuple _ => Raise ValueError
  | Other => Raise ValueError
  end.
(** target_azimuth, target_zenith, target_velocity setters (315-327, 365-376, 389-398) *)
Definition check_span (a : arg) : result arg :=
  match a with
  | Tuple [lo; hi] => if Rlt_dec hi lo then Raise ValueError else Ok a
  | Tuple _ => Raise ValueError
  | _ => Ok a
  end.
Definition check_speed (a : speed_arg) : result speed_arg := match a with Speed s => do b <- check_span s; Ok (Speed b) | Vector v => Ok (Vector v) end.
(** radar_cross_section (338-352), decorrelation_distance (421-426) setters *)
Definition check_nonnegative (v : R) : result R := if Rlt_dec v 0 then Raise ValueError else Ok v.
(** __init__ (201-270) *)
Definition create_single (rg : arg) (cs : R) (az ze : arg) (ex : bool) (vel : speed_arg) (dec : R) (att : bool) : result single :=
  do r <- check_range rg;
  do c <- check_nonnegative cs;
  do a <- check_span az;
  do z <- check_span ze;
  do v <- check_speed vel;
  do d <- check_nonnegative dec;
  Ok (Single r c a z ex v d att).
(** The draws of the five random variables *)
Record draws := Draws { u_range : R; u_azimuth : R; u_zenith : R; u_velocity : R; u_phase : R }.
(** One parameter (81-108): tuples accepted by the setters have two entries; python would not multiply anything else *)
Definition drawn (a : arg) (u : R) : R :=
  match a with Scalar v => v | Tuple (lo :: hi :: _) => lo + (hi - lo) * u | _ => 0 end.
(** _generate_paths (71-133); a realization keeps the parameters of the channel, and no range if the target does not exist (429-445) *)
Definition single_paths (c : single) (d : draws) : list path :=
  if s_exists c then
    let r := drawn (s_range c) (u_range d) in
    let a := drawn (s_azimuth c) (u_azimuth d) in
    let z := drawn (s_zenith c) (u_zenith d) in
    let e := From_Spherical a z in
    let v := match s_velocity c with Speed s => vscale (drawn s (u_velocity d)) e | Vector v => v end in
    [TargetPath (vscale r e) v (s_cross_section c) (2 * PI * u_phase d) (s_attenuate c) false]
  else [].

(** ** Many targets *)
(** A target: pose and velocity over time, cross section by directions, static or not *)
Record target := Tgt { t_pose : R -> transformation; t_velocity : R -> vec; t_section : vec -> vec -> R; t_static : bool }.
(** FixedCrossSection (133-165) *)
Definition fixed_cross_section (v : R) : result (vec -> vec -> R) := if Rlt_dec v 0 then Raise ValueError else Ok (fun _ _ => v).
(** np.array_equal of vectors *)
Definition same_point (a b : vec) : bool :=
  (if Req_EM_T (vx a) (vx b) then true else false) && (if Req_EM_T (vy a) (vy b) then true else false) && (if Req_EM_T (vz a) (vz b) then true else false).
(** __sample_target (360-424): the inverted pose is called forwards, the pose backwards; [u] draws the phase at two positions *)
Definition sample_target (t : target) (time : R) (tx rx : vec) (u : vec -> vec -> R) (att : bool) : result path :=
  let backwards := t_pose t time in
  let forwards := invert backwards in
  if same_point (translation forwards) tx then Raise RuntimeError
  else if same_point (translation forwards) rx then Raise RuntimeError
  else
    do impinging <- transform_direction backwards (vsub (translation forwards) tx) true;
    do emerging <- transform_direction backwards (vsub rx (translation forwards)) true;
    Ok (TargetPath (translation backwards) (t_velocity t time) (t_section t impinging emerging) (2 * PI * u (translation forwards) rx) att (t_static t)).
(** _generate_paths (427-434) *)
Definition multi_paths (ts : list target) (interference att : bool) (time : R) (tx rx : vec) (u : vec -> vec -> R) : result (list path) :=
  do ps <- mapM (fun t => sample_target t time tx rx u att) ts;
  Ok (if (interference && negb (same_point tx rx))%bool then ps ++ [InterferencePath att true] else ps).

(** Channels and realizations as objects (470-510, 536-586): targets are numbered, the set of targets is shared by reference.
    Simplification: sets are lists without repetitions in the order of insertion. *)
Record channel := Ch { c_targets : list nat; c_interference : bool; c_attenuate : bool; c_realizations : list (bool * bool) }.
Inductive action := AddTarget (t : nat) | SetInterference (b : bool) | SetAttenuate (b : bool) | Realize.
Definition act (c : channel) (a : action) : channel :=
  match a with
  | AddTarget t => Ch (if existsb (Nat.eqb t) (c_targets c) then c_targets c else c_targets c ++ [t]) (c_interference c) (c_attenuate c) (c_realizations c)
  | SetInterference b => Ch (c_targets c) b (c_attenuate c) (c_realizations c)
  | SetAttenuate b => Ch (c_targets c) (c_interference c) b (c_realizations c)
  | Realize => Ch (c_targets c) (c_interference c) (c_attenuate c) (c_realizations c ++ [(c_interference c, c_attenuate c)])
  end.
Definition acts (c : channel) (l : list action) : channel := fold_left act l c.
Definition new_channel (interference attenuate : bool) : channel := Ch [] interference attenuate [].
(** What sampling the i-th realization uses: its own flags, the channel's targets *)
Definition sampled (c : channel) (i : nat) : option (list nat * bool * bool) :=
  match nth_error (c_realizations c) i with Some (f, a) => Some (c_targets c, f, a) | None => None end.
