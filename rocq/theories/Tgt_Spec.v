(** Vocabulary for radar targets. *)
From Coq Require Import List Reals.
From Verif Require Import Base Rot_Model Rot_Spec Rch_Model Tgt_Model.
Import ListNotations.
Open Scope R_scope.

(** A parameter is a number or an interval *)
Definition within (a : arg) (v : R) : Prop :=
  match a with Scalar x => v = x | Tuple [lo; hi] => lo <= v <= hi | _ => False end.
Definition well_formed (a : arg) : Prop := match a with Scalar _ => True | Tuple [lo; hi] => lo <= hi | _ => False end.
Definition well_formed_range (a : arg) : Prop := match a with Scalar v => 0 <= v | Tuple [lo; hi] => 0 <= lo <= hi | _ => False end.
Definition in_unit (u : R) : Prop := 0 <= u <= 1.
Definition unit_draws (d : draws) : Prop := in_unit (u_range d) /\ in_unit (u_azimuth d) /\ in_unit (u_zenith d) /\ in_unit (u_velocity d) /\ in_unit (u_phase d).
(** Where a path's target is *)
Definition target_position (p : path) : option vec := match p with TargetPath q _ _ _ _ _ => Some q | InterferencePath _ _ => None end.
(** The directions of a wave seen by a target, in its own coordinates *)
Definition seen_from (t : target) (time : R) (from to : vec) : vec :=
  mv (transpose (rotation (t_pose t time))) (vscale (/ norm (vsub to from)) (vsub to from)).
(** The flags last set by some actions *)
Definition last_interference (b : bool) (l : list action) : bool := fold_left (fun b x => match x with SetInterference c => c | _ => b end) l b.
Definition last_attenuate (b : bool) (l : list action) : bool := fold_left (fun b x => match x with SetAttenuate c => c | _ => b end) l b.
