(** Vocabulary for channels that delay signals. *)
From Coq Require Import List Reals Arith.
From Coquelicot Require Import Complex.
From Verif Require Import Base Cplx Rot_Model Chan_Model Nz_Spec Dly_Model.
Import ListNotations.
Open Scope R_scope.

Definition distance (a b : vec) : R := sqrt ((vx a - vx b) ^ 2 + (vy a - vy b) ^ 2 + (vz a - vz b) ^ 2).
(** The speed of light in vacuum, in meters per second *)
Definition light : R := 299792458.
(** A link between single antennas that only turn the phase *)
Definition plain (k : link) : Prop := tx_antennas k = 1%nat /\ rx_antennas k = 1%nat /\ sq (tx_response k 0%nat) = 1 /\ sq (rx_response k 0%nat) = 1.
(** What a distribution function is *)
Definition distribution (cdf : R -> R) : Prop := (forall x, 0 <= cdf x <= 1) /\ forall x y, x < y -> cdf x < cdf y.
