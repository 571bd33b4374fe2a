(** Vocabulary for channels sampled by ray tracers: the paths as delayed and weighted copies (Chan_Spec). *)
From Coq Require Import List Reals ZArith Bool Arith.
From Coquelicot Require Import Complex.
From Verif Require Import Base Cplx Chan_Model Chan_Spec Ext_Model.
Import ListNotations.
Open Scope R_scope.

(** Each of Quadriga's paths arrives after its delay, rounded to whole samples *)
Definition quadriga_taps (c : qsample) : list tap :=
  map (fun p => Tap (Z.to_nat (rint (q_delay p * q_bandwidth c))) (fun r t _ => (q_coefficient p r t * RtoC (sqrt (q_gain c)))%C)) (q_paths c).
(** Each of Sionna's valid rays arrives after the whole samples of its delay, and affects all antennas alike *)
Definition valid (p : ray) : bool := if Rle_dec 0 (s_delay p) then true else false.
Definition sionna_taps (c : ssample) : list tap :=
  map (fun p => Tap (Z.to_nat (Int_part (s_delay p * s_bandwidth c))) (fun _ _ i => (s_coefficient p i * RtoC (sqrt (s_gain c)))%C)) (filter valid (s_rays c)).
(** What Sionna delivers: delays, or -1 *)
Definition traced (c : ssample) : Prop := 0 < s_bandwidth c /\ Forall (fun p => 0 <= s_delay p \/ s_delay p = -1) (s_rays c).
(** The taps before a given one *)
Definition before (n : nat) (taps : list tap) : list tap := filter (fun p => Nat.ltb (td p) n) taps.
