(** Vocabulary for traced paths and Quadriga channels *)
From Coq Require Import List Reals ZArith Bool Arith.
From Coquelicot Require Import Complex.
From Verif Require Import Base Cplx Chan_Model Chan_Spec Trc_Model.
Import ListNotations.
Open Scope R_scope.

(** Paths are valid, with a delay that is not negative, or marked invalid; at least one is valid *)
Definition reachable (c : traced) : Prop :=
  0 < t_bandwidth c /\ (forall p, In p (t_paths c) -> tau p = -1 \/ 0 <= tau p) /\ exists p, In p (t_paths c) /\ 0 <= tau p.
(** What ray tracing is meant to receive: each valid path delays the sum of all streams by the whole number of samples within its delay *)
Definition traced_taps (c : traced) : list tap :=
  map (fun p => Tap (Z.to_nat (Int_part (tau p * t_bandwidth c))) (fun _ _ i => (RtoC (sqrt (t_gain c)) * coefficient p i)%C))
    (filter (fun p => if Rle_dec 0 (tau p) then true else false) (t_paths c)).
(** What a Quadriga channel is meant to receive: each path delays by the nearest number of samples *)
Definition quad_taps (c : quad) : list tap :=
  map (fun p => Tap (in_samples (q_delay p) (q_bandwidth c)) (fun r t _ => (RtoC (sqrt (q_gain c)) * q_coefficients p r t)%C)) (q_paths c).
