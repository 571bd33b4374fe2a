(** Vocabulary for noise. *)
From Coq Require Import List Reals Arith.
From Coquelicot Require Import Complex.
From Verif Require Import Base Cplx Chan_Model Nz_Model.
Import ListNotations.
Open Scope R_scope.

(** Squared magnitude, and the energy of a stream of a block *)
Definition sq (z : C) : R := fst z * fst z + snd z * snd z.
Definition energy (b : blk) (r : nat) : R := rsum (fun n => sq (x b r n)) (samples b).
(** Mean over [n] equally likely draws *)
Definition mean (n : nat) (f : nat -> R) : R := rsum f n / INR n.
(** Draws [u w i a] of [rows] by [cols] complex numbers whose real and imaginary parts have zero mean, unit variance and no correlation among all of them *)
Definition white (n rows cols : nat) (u : nat -> nat -> nat -> C) : Prop :=
  (0 < n)%nat /\
  (forall i a, (i < rows)%nat -> (a < cols)%nat -> mean n (fun w => fst (u w i a)) = 0 /\ mean n (fun w => snd (u w i a)) = 0) /\
  (forall i a j b, (i < rows)%nat -> (a < cols)%nat -> (j < rows)%nat -> (b < cols)%nat ->
     mean n (fun w => fst (u w i a) * fst (u w j b)) = (if (Nat.eqb i j && Nat.eqb a b)%bool then 1 else 0) /\
     mean n (fun w => snd (u w i a) * snd (u w j b)) = (if (Nat.eqb i j && Nat.eqb a b)%bool then 1 else 0) /\
     mean n (fun w => fst (u w i a) * snd (u w j b)) = 0).
(** The same for real numbers in a sequence *)
Definition white_sequence (n len : nat) (u : nat -> nat -> R) : Prop :=
  (0 < n)%nat /\ forall a b, (a < len)%nat -> (b < len)%nat -> mean n (fun w => u w a * u w b) = if Nat.eqb a b then 1 else 0.
Definition unrelated (n len : nat) (u v : nat -> nat -> R) : Prop :=
  forall a b, (a < len)%nat -> (b < len)%nat -> mean n (fun w => u w a * v w b) = 0.
(** Rays of a path of a fading channel at a time: diffuse ones first, then the specular one *)
Definition ray (c : fading_sample) (p : path) (i k : nat) : C :=
  let t := INR i / f_bandwidth c in
  if Nat.ltb k (length (nlos p)) then
    let '(angle, ph) := nth k (nlos p) (0, 0) in cis (nlos_doppler c * t * cos ((2 * PI * (1 + INR k) + angle) / INR (length (nlos p))) + ph)
  else cis (los_doppler c * t * cos (los_angle p) + los_phase p).
(** [n] equally likely samples of the same fading channel: only angles and phases differ, and different rays are uncorrelated *)
Definition no_path : path := Path 0 0 0 0 0 0 [].
Definition scattered (n : nat) (c : nat -> fading_sample) (c0 : fading_sample) : Prop :=
  (0 < n)%nat /\
  (forall w, (w < n)%nat -> f_rx (c w) = 1%nat /\ f_tx (c w) = 1%nat /\ a_rx (c w) = 1%nat /\ a_tx (c w) = 1%nat /\ f_bandwidth (c w) = f_bandwidth c0 /\
     f_gain (c w) = f_gain c0 /\ f_response (c w) 0%nat 0%nat = RtoC 1 /\ length (paths (c w)) = length (paths c0) /\
     forall a, (a < length (paths c0))%nat -> let p := nth a (paths (c w)) no_path in let q := nth a (paths c0) no_path in
       p_delay p = p_delay q /\ power p = power q /\ los_gain p = los_gain q /\ nlos_gain p = nlos_gain q /\ length (nlos p) = length (nlos q)) /\
  (forall a b k l i j, (a < length (paths c0))%nat -> (b < length (paths c0))%nat ->
     (k <= length (nlos (nth a (paths c0) no_path)))%nat -> (l <= length (nlos (nth b (paths c0) no_path)))%nat -> (a, k) <> (b, l) ->
     csum (fun w => ray (c w) (nth a (paths (c w)) no_path) i k * conj (ray (c w) (nth b (paths (c w)) no_path) j l))%C n = RtoC 0).
(** Paths whose specular and diffuse components together have unit power *)
Definition unit_power (p : path) : Prop := los_gain p * los_gain p + INR (length (nlos p)) * (nlos_gain p * nlos_gain p) = 1.
