(** Vocabulary of the properties of frequency modulated continuous wave radars. *)
From Coq Require Import List Reals Bool Arith ZArith.
From Coquelicot Require Import Complex.
From Verif Require Import Base Cplx Radar_Model Fmcw_Model.
Import ListNotations.
Local Open Scope nat_scope.

(** Energy of samples *)
Definition energy_of (x : list C) : R := fold_right Rplus 0%R (map (fun z => Cmod z ^ 2)%R x).
(** Samples received in a pulse repetition interval of [p] samples *)
Definition received (p : nat) (x : list C) (r n : nat) : C := at0 x (r * p + n).
(** All intervals of a frame hold the same samples: nothing moves *)
Definition static_scene (p chirps : nat) (x : list C) : Prop := forall r n, r < chirps -> n < p -> received p x r n = received p x 0 n.
(** Samples of later intervals are shifted in frequency: everything moves with the same velocity *)
Definition moving_scene (p chirps : nat) (interval shift : R) (x : list C) : Prop :=
  forall r n, r < chirps -> n < p -> received p x r n = (cis (2 * PI * shift * (INR r * interval)) * received p x 0 n)%C.
(** Echo of transmitted samples with a delay and a gain *)
Definition echo (s : list C) (g : C) (delay : nat) (x : list C) : Prop :=
  forall l, at0 x l = if delay <=? l then (g * at0 s (l - delay))%C else RtoC 0.
Definition homogeneous (filter : list C -> list C) : Prop := forall c l, filter (map (Cmult c) l) = map (Cmult c) (filter l).
(** Range of an object whose echo is delayed by [delay] seconds *)
Definition distance (delay : R) : R := (speed_of_light * delay / 2)%R.
(** An ideal analog-to-digital conversion keeps every [q]th sample *)
Definition every (q : nat) (l : list C) : list C := map (fun i => at0 l (q * i)) (seq 0 (ceil_div (length l) q)).
