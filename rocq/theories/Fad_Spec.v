(** Vocabulary for fading profiles. *)
From Coq Require Import List Arith ZArith Reals Lra Bool Sorted.
From Coquelicot Require Import Complex Hierarchy Series.
From Verif Require Import Base Cplx Chan_Model Fad_Model.
Import ListNotations.
Local Open Scope R_scope.

(** Sum of a list of numbers *)
Fixpoint total (l : list R) : R := match l with [] => 0 | x :: t => x + total t end.
(** Taps in the order of their delays *)
Definition in_order (l : list tap) : Prop := StronglySorted (fun a b => t_delay a <= t_delay b) l.
(** Power-weighted mean and root mean square spread of the delays of infinitely many taps, [interval] apart *)
Definition has_spread (power : nat -> R) (interval spread : R) : Prop :=
  exists p m : R, 0 < p /\ is_series power p /\ is_series (fun k => power k * (INR k * interval)) (p * m) /\
                  is_series (fun k => power k * (INR k * interval - m) ^ 2) (p * (spread * spread)).
(** The same for the taps of a channel *)
Definition mean_delay (l : list tap) : R := total (map (fun t => t_power t * t_delay t) l) / total (map t_power l).
Definition squared_spread (l : list tap) : R := total (map (fun t => t_power t * (t_delay t - mean_delay l) ^ 2) l) / total (map t_power l).
(** Hermitian matrices without negative directions *)
Definition hermitian (n : nat) (m : nat -> nat -> C) : Prop := forall i j, (i < n)%nat -> (j < n)%nat -> m i j = Cconj (m j i).
Definition quadratic (n : nat) (m : nat -> nat -> C) (x : nat -> C) : C := csum (fun i => csum (fun j => Cconj (x i) * m i j * x j)%C n) n.
Definition covariance (n : nat) (m : nat -> nat -> C) : Prop := hermitian n m /\ forall x, 0 <= fst (quadratic n m x) /\ snd (quadratic n m x) = 0.
(** Antennas with [n] equally likely responses [h w i], all of unit power and pairwise uncorrelated *)
Definition uncorrelated (n antennas : nat) (h : nat -> nat -> C) : Prop :=
  (0 < n)%nat /\ forall i j, (i < antennas)%nat -> (j < antennas)%nat -> (csum (fun w => h w i * Cconj (h w j)) n = if Nat.eqb i j then RtoC (INR n) else RtoC 0)%C.
(** Correlation of two antennas over the [n] responses *)
Definition correlation_of (n : nat) (h : nat -> nat -> C) (i j : nat) : C := (csum (fun w => h w i * Cconj (h w j)) n / RtoC (INR n))%C.
(** Power of all paths, and of their specular components alone *)
Definition path_power (l : list path) : R := total (map power l).
Definition specular_power (l : list path) : R := total (map (fun p => power p * los_gain p ^ 2) l).
