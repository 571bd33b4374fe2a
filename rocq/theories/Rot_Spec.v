(** Vocabulary for coordinate transformations: proper rotations and rigid transformations. *)
From Coq Require Import List Reals.
From Verif Require Import Base Rot_Model.
Import ListNotations.
Open Scope R_scope.

Definition transpose (a : mat) : mat := M (m00 a) (m10 a) (m20 a) (m01 a) (m11 a) (m21 a) (m02 a) (m12 a) (m22 a).
(** Orthogonal and keeping orientation *)
Definition proper (a : mat) : Prop := mm a (transpose a) = eye /\ det a = 1.
Definition rigid (a : transformation) : Prop := proper (rotation a).
Definition unit_vector (v : vec) : Prop := norm v = 1.
Definition unit_quaternion (q : quaternion) : Prop := q0 q ^ 2 + q1 q ^ 2 + q2 q ^ 2 + q3 q ^ 2 = 1.
(** What a transformation does to a point, as coordinates *)
Definition coordinates (v : vec) : list R := [vx v; vy v; vz v].
Definition distance (a b : vec) : R := norm (vsub a b).
