(** Vocabulary of the properties of matched filter radars. *)
From Coq Require Import List Reals Bool Arith ZArith.
From Coquelicot Require Import Complex.
From Verif Require Import Base Cplx Radar_Model Mf_Model.
Import ListNotations.
Local Open Scope nat_scope.

Fixpoint rsum (f : nat -> R) (n : nat) : R := match n with O => 0%R | S k => (rsum f k + f k)%R end.
(** Energy of a signal *)
Definition energy (x : list C) : R := rsum (fun l => Cmod (at0 x l) ^ 2)%R (length x).
(** [r] is the echo of the transmitted samples [x] with gain [g], delayed by [delay] samples and shifted in frequency by [shift] *)
Definition echo (x : list C) (g : C) (delay : nat) (shift rate : R) (r : list C) : Prop :=
  forall l, at0 r l = if delay <=? l then (g * at0 x (l - delay) * cis (2 * PI * shift * (INR (l - delay) / rate)))%C else RtoC 0.
(** Frequency shift of an echo reflected from an object moving with a velocity *)
Definition two_way_doppler (carrier velocity : R) : R := (2 * velocity / speed_of_light * carrier)%R.
(** Number of samples between transmission and arrival of an echo from a distance *)
Definition round_trip_samples (rate distance : R) : R := (2 * distance / speed_of_light * rate)%R.
(** Streams after a history of transmissions *)
Definition transmit_all (l : list (list (list C))) (s : state) : state := fold_left transmit l s.
