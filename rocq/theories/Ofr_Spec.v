(** Vocabulary of the properties of radars processing communication frames. *)
From Coq Require Import List Reals Bool Arith ZArith.
From Coquelicot Require Import Complex.
From Verif Require Import Base Cplx Radar_Model Ofr_Model.
Import ListNotations.
Local Open Scope nat_scope.

(** A rectangular grid of symbols *)
Definition rectangular (words carriers : nat) (g : grid) : Prop := length g = words /\ Forall (fun r => length r = carriers) g.
(** Number of symbols that are not zero *)
Definition used (g : grid) : nat := length (filter (fun v => negb (Ceqb v (RtoC 0))) (concat g)).
(** Symbols of an echo with a gain, a delay of [delay] samples at a sampling rate of the bandwidth, and [z] turns of phase in [words] words *)
Definition echo_symbols (words carriers : nat) (g : C) (delay : nat) (z : Z) (x y : grid) : Prop :=
  rectangular words carriers x /\ rectangular words carriers y /\
  forall r c, r < words -> c < carriers -> entry y r c = (g * cis (- turn carriers delay c) * cis (2 * PI * IZR z * INR r / INR words) * entry x r c)%C.
(** Distance of an object whose echo arrives after some time *)
Definition distance (delay : R) : R := (speed_of_light * delay / 2)%R.
