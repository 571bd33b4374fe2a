(** Vocabulary for beamformers: directions, plane waves and the signals they cause. *)
From Coq Require Import List Reals.
From Coquelicot Require Import Complex.
From Verif Require Import Base Cplx Rot_Model Rot_Spec Ant_Model Ant_Spec Beam_Model.
Import ListNotations.
Open Scope R_scope.

(** The direction, in the array's own frame, a focus refers to *)
Definition aimed (arr : array) (f : focus) (v : vec) : Prop :=
  match f with
  | Spherical a z => v = V (cos a * sin z) (sin a * sin z) (cos z)
  | Coordinate d Local => unit_vector d /\ v = d
  | Coordinate d Global => unit_vector d /\ d = mv (rotation (base arr)) v
  end.
(** Relative phases of a plane wave of direction v, in the array's own frame, at the antennas *)
Definition wavefront (arr : array) (carrier : R) (v : vec) (m : mode) : list C :=
  map (fun a => cis (2 * PI * carrier * dot v (translation (apose a)) / speed_of_light)) (select m (antennas arr)).
(** Samples a plane wave carrying a stream causes at the antennas *)
Definition arriving (phases : list C) (s : list C) : block := map (fun k => map (fun x => (k * x)%C) s) phases.
(** What a distant receiver gets: the sum over the antennas *)
Definition radiated (phases : list C) (x : block) (t : nat) : C := csum (fun n => at0 phases n * at2 x n t)%C (length phases).
(** Output of weights applied (with conjugation) to a block, and its energy *)
Definition combined (w : nat -> C) (x : block) (t : nat) : C := csum (fun n => conj (w n) * at2 x n t)%C (length x).
Fixpoint rsum (f : nat -> R) (n : nat) : R := match n with O => 0 | S k => rsum f k + f k end.
Definition energy (f : nat -> C) (n : nat) : R := rsum (fun t => Cmod (f t) ^ 2) n.
(** Inverses np.linalg.inv may return; generalised inverses *)
Definition identity_entry (i j : nat) : C := if Nat.eqb i j then RtoC 1 else RtoC 0.
Definition inverts (inv : nat -> (nat -> nat -> C) -> result (nat -> nat -> C)) : Prop :=
  forall n m p, inv n m = Ok p -> forall i j, (i < n)%nat -> (j < n)%nat -> csum (fun k => m i k * p k j)%C n = identity_entry i j.
Definition pseudo_inverts (pinvh : (nat -> nat -> C) -> nat -> nat -> C) : Prop :=
  forall g, (forall i j, (i < 2)%nat -> (j < 2)%nat -> g i j = conj (g j i)) ->
  forall i j, (i < 2)%nat -> (j < 2)%nat -> csum (fun k => csum (fun l => g i l * pinvh g l k) 2 * g k j)%C 2 = g i j.
(** All streams of a block have the same length *)
Definition rectangular (x : block) : Prop := Forall (fun s => length s = width x) x.
(** The response to direction v0 is not mixed from the conjugated responses to v1 and v2 *)
Definition separable (arr : array) (carrier : R) (v0 v1 v2 : vec) : Prop :=
  ~ exists c d : C, forall n, (n < length (antennas arr))%nat ->
    at0 (wavefront arr carrier v0 DUPLEX) n = (c * conj (at0 (wavefront arr carrier v1 DUPLEX) n) + d * conj (at0 (wavefront arr carrier v2 DUPLEX) n))%C.
