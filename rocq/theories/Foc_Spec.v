(** The direction, along the axes of the scene, from one position to another. *)
From Coq Require Import Reals.
From Verif Require Import Rot_Model.
Open Scope R_scope.
Definition heads (own other d : vec) : Prop := norm d = 1 /\ exists r, 0 < r /\ vsub other own = vscale r d.
