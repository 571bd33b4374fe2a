(** Vocabulary of the properties of the TI XWR1843 radar waveform *)
From Coq Require Import List Reals Bool Arith ZArith.
From Coquelicot Require Import Complex.
From Verif Require Import Base Cplx Radar_Model.
Import ListNotations.
Local Open Scope nat_scope.

(** The baseband samples of an echo: [n] samples in each of [chirps] chirps, turning [q] times per chirp and [p] times over the frame, of amplitude [A] *)
Definition echo (A : C) (chirps n : nat) (p q : Z) : list C :=
  tab (chirps * n) (fun i => A * cis (2 * PI * (IZR p * INR (i / n) / INR chirps + IZR q * INR (i mod n) / INR n)))%C.
(** The distance of a target whose echo, mixed with a ramp of the given slope, beats at frequency [f] *)
Definition beat_range (slope f : R) : R := (speed_of_light * f / (2 * slope))%R.
(** A map of the given shape that only is positive at one row and column *)
Definition single_peak (rows columns : nat) (row column : nat) (power : R) (g : list (list R)) : Prop :=
  length g = rows /\ (forall i, i < rows -> length (nth i g []) = columns) /\
  forall i j, i < rows -> j < columns -> nth j (nth i g []) 0%R = if (i =? row) && (j =? column) then power else 0%R.
Definition silent (rows columns : nat) (g : list (list R)) : Prop :=
  length g = rows /\ (forall i, i < rows -> length (nth i g []) = columns) /\
  forall i j, i < rows -> j < columns -> nth j (nth i g []) 0%R = 0%R.
(** Resamplers that return as many samples as requested, and the samples themselves if there already are as many *)
Definition faithful (resample : nat -> list C -> list C) : Prop := (forall m x, length (resample m x) = m) /\ forall x, resample (length x) x = x.
