(** Vocabulary of the properties of correlation synchronization. *)
From Coq Require Import List Reals Bool Arith ZArith Sorting.Sorted.
From Coquelicot Require Import Complex.
From Verif Require Import Base Cplx Sync_Model.
Import ListNotations.

(** Highest correlation of the signal with the pilot *)
Definition best (streams : list (list C)) (n : nat) (pilot : list C) : R := maximum (correlation streams pilot) (length pilot + n - 2).
(** Correlation with the pilot starting at sample [d] *)
Definition score (streams : list (list C)) (pilot : list C) (d : nat) : R := correlation streams pilot (d + (length pilot - 1)).
(** Sample of a pilot at an integer position, zero outside of it *)
Definition atz (p : list C) (z : Z) : C := if (z <? 0)%Z then RtoC 0 else at0 p (Z.to_nat z).
(** Correlation of a pilot with itself shifted by [lag] *)
Definition auto (p : list C) (lag : Z) : C := csum (fun i => at0 p i * conj (atz p (Z.of_nat i - lag)))%C (length p).
(** A stream of [n] samples, silent except for the pilot with gain [g] starting at sample [d] *)
Definition isolated (p : list C) (n d : nat) (g : C) (stream : list C) : Prop :=
  length stream = n /\ forall l, at0 stream l = (g * (if d <=? l then at0 p (l - d) else RtoC 0))%C.
(** The same signal with gain [g] *)
Definition amplified (g : C) (streams : list (list C)) : list (list C) := map (map (Cmult g)) streams.
