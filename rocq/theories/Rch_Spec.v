(** Vocabulary for radar channels: what moves along straight lines, lengths of paths, echoes. *)
From Coq Require Import List Reals ZArith Bool Arith.
From Coquelicot Require Import Complex.
From Verif Require Import Base Cplx Rot_Model Rot_Spec Ant_Model Chan_Model Chan_Spec Rch_Model.
Import ListNotations.
Open Scope R_scope.

(** Where something at [p] with velocity [v] is after a time *)
Definition at_time (p v : vec) (t : R) : vec := vadd p (vscale t v).
(** The length of a path while devices and targets move on *)
Definition path_length (p : path) (tx rx : device) (t : R) : R :=
  let a := at_time (position tx) (velocity tx) t in
  let b := at_time (position rx) (velocity rx) t in
  match p with
  | TargetPath q v _ _ _ _ => let c := at_time q v t in distance c a + distance b c
  | InterferencePath _ _ => distance b a
  end.
(** The ends of a path do not coincide *)
Definition apart (p : path) (tx rx : device) : Prop :=
  match p with
  | TargetPath q _ _ _ _ _ => q <> position tx /\ q <> position rx
  | InterferencePath _ _ => position tx <> position rx
  end.
Definition interferes (p : path) : Prop := match p with InterferencePath _ _ => True | _ => False end.
(** All antennas transmit and receive *)
Definition duplex (d : device) : Prop := forall a, In a (antennas (arr d)) -> amode a = DUPLEX.
(** The echo of a block along one path: delayed by a whole number of samples, weighted by the responses, turning with the Doppler shift *)
Definition echo (p : path) (tx rx : device) (bandwidth carrier time : R) (s : blk) (r k : nat) : C :=
  match propagation_response p tx rx carrier, relative_velocity p tx rx with
  | Ok h, Ok v =>
      let d := whole (propagation_delay p tx rx * bandwidth) in
      if (Nat.leb d k && Nat.ltb k (d + samples s))%bool
      then (csum (fun j => m_at h r j * x s j (k - d)%nat) (streams s) * cis (2 * PI * (v * carrier / speed_of_light) * (time + INR (k - d) / bandwidth)))%C
      else RtoC 0
  | _, _ => RtoC 0
  end.
Definition total_echo (ps : list path) (tx rx : device) (bandwidth carrier time : R) (s : blk) (r k : nat) : C :=
  total (fun p => echo p tx rx bandwidth carrier time s r k) ps.
(** A sum of two blocks of the same shape with weights *)
Definition combined (a b : C) (s t : blk) : blk := Blk (streams s) (samples s) (offset s) (fun i j => (a * x s i j + b * x t i j)%C).
