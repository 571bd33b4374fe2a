(** Vocabulary for least squares channel estimation: what linear and nearest interpolation return, channels. *)
From Coq Require Import List Arith Bool Reals.
From Coquelicot Require Import Complex.
From Verif Require Import Base Grid_Model Grid_Spec Lse_Model.
Import ListNotations.
Local Open Scope nat_scope.

Definition coordinates (p : place_of) : R * R := (INR (fst p), INR (snd p)).
Fixpoint rtotal (l : list R) : R := match l with [] => 0%R | x :: l' => (x + rtotal l')%R end.
Fixpoint ctotal (l : list C) : C := match l with [] => RtoC 0 | x :: l' => Cplus x (ctotal l') end.
(** [z] is a weighted mean of the values, with weights that locate [p] among the points *)
Definition weighted_mean (points : list place_of) (values : list C) (p : place_of) (z : C) : Prop :=
  exists weights, length weights = length points /\ Forall (fun x => (0 <= x)%R) weights /\ rtotal weights = 1%R /\
  rtotal (map (fun q => fst q * fst (coordinates (snd q)))%R (combine weights points)) = fst (coordinates p) /\
  rtotal (map (fun q => fst q * snd (coordinates (snd q)))%R (combine weights points)) = snd (coordinates p) /\
  z = ctotal (map (fun q => Cmult (RtoC (fst q)) (snd q)) (combine weights values)).
(** A place lies within the hull of the points *)
Definition surrounded (points : list place_of) (p : place_of) : Prop :=
  exists weights, length weights = length points /\ Forall (fun x => (0 <= x)%R) weights /\ rtotal weights = 1%R /\
  rtotal (map (fun q => fst q * fst (coordinates (snd q)))%R (combine weights points)) = fst (coordinates p) /\
  rtotal (map (fun q => fst q * snd (coordinates (snd q)))%R (combine weights points)) = snd (coordinates p).
(** What scipy's linear interpolation returns: a weighted mean, or nothing outside of the points' hull; nearest interpolation: one of the values *)
Definition interpolated (points : list place_of) (values : list C) (places : list place_of) (out : list (option C)) : Prop :=
  Forall2 (fun p o => match o with Some z => weighted_mean points values p z | None => ~ surrounded points p end) places out.
Definition interpolates (linear : list place_of -> list C -> list place_of -> result (list (option C))) : Prop :=
  forall points values places out, length values = length points -> linear points values places = Ok out -> interpolated points values places out.
Definition chosen (values : list C) (places : list place_of) (out : list C) : Prop := length out = length places /\ Forall (fun z => In z values) out.
Definition chooses (nearest : list place_of -> list C -> list place_of -> list C) : Prop :=
  forall points values places, length values = length points -> points <> [] -> chosen values places (nearest points values places).
(** All points lie in one word, so that there is no triangle to interpolate in *)
Definition in_one_word (points : list place_of) : Prop := exists i, Forall (fun p => fst p = i) points.

(** What arrives of a frame over a channel with a coefficient for every cell, disturbed by noise *)
Definition over (channel noise : place_of -> C) (words width : nat) (grid : list (list C)) : list (list C) :=
  map (fun i => map (fun j => Cplus (Cmult (channel (i, j)) (entry (RtoC 0) grid (i, j))) (noise (i, j))) (seq 0 width)) (seq 0 words).
Definition quiet (_ : place_of) : C := RtoC 0.

(** A frame: the reference symbols are drawn from the sequence of the waveform only (no pilot sections), data has been placed in the grid *)
Definition framed (w : @wave C) (data : list C) (grid : list (list C)) (mask : list (list (option etype))) : Prop :=
  pilots_ok w /\ forallb (fun s => negb (is_pilot s)) (w_struct w) = true /\ place (RtoC 0) w data = Ok grid /\ resource_mask w = Ok mask.
(** A cell of the frame *)
Definition cell (w : @wave C) (p : place_of) : Prop := fst p < words_per_frame w /\ snd p < w_sub w.
