(** Vocabulary for beam patterns: energies received in a direction, the last signals of a device, directions of a codebook. *)
From Coq Require Import List Reals.
From Coquelicot Require Import Complex.
From Verif Require Import Base Cplx Rot_Model Ant_Model Beam_Model Beam_Spec Lobe_Model.
Import ListNotations.
Open Scope R_scope.

(** A signal of n streams; its total energy; the energy of the sum of its streams, each multiplied by a weight *)
Definition fits (n : nat) (x : list block) : Prop := Forall (fun b => length b = n /\ rectangular b) x.
Fixpoint over_blocks (f : block -> R) (x : list block) : R := match x with [] => 0 | b :: x' => f b + over_blocks f x' end.
Definition total_energy : list block -> R := over_blocks (fun b => rsum (fun n => energy (fun t => at2 b n t) (width b)) (length b)).
Definition weighted_energy (w : list C) : list block -> R := over_blocks (fun b => energy (radiated w b) (width b)).
(** Energy a distant observer in a direction (in the array's own frame) gets from an array fed with the signal *)
Definition pattern (arr : array) (carrier : R) (m : mode) (v : vec) (x : list block) : R := weighted_energy (wavefront arr carrier v m) x.
(** The signal multiplied by a number *)
Definition amplified (k : C) (x : list block) : list block := map (map (map (fun z => (k * z)%C))) x.
(** What a device has last received or transmitted *)
Fixpoint last_received (h : list event) (d : option (list block)) : option (list block) :=
  match h with [] => d | Received x :: h' => last_received h' (Some x) | _ :: h' => last_received h' d end.
Fixpoint last_transmitted (h : list event) (d : option (list block)) : option (list block) :=
  match h with [] => d | Transmitted x :: h' => last_transmitted h' (Some x) | _ :: h' => last_transmitted h' d end.
Fixpoint last_mode (h : list event) (d : mode) : mode :=
  match h with [] => d | SetMode m :: h' => last_mode h' m | _ :: h' => last_mode h' d end.
Fixpoint last_focus (h : list event) (d : focus) : focus :=
  match h with [] => d | SetFocus f :: h' => last_focus h' f | _ :: h' => last_focus h' d end.
(** The direction of the i-th ring of zeniths (counted from the north pole) and the j-th of 2 n azimuths *)
Definition ring (n i j : nat) : vec := From_Spherical (INR j * (2 * PI / INR (2 * n))) (INR i * (PI / INR (n - 1))).
Definition opposite (v : vec) : vec := V (- vx v) (- vy v) (- vz v).
(** Sums of powers, per stream *)
Definition stream_power (l : list (list R)) (k : nat) : R := fold_right (fun p s => nth k p 0 + s) 0 l.
