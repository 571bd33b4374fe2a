(** Vocabulary for cluster delay lines (C109), after 3GPP TR 38.901, sections 7.5 and 7.6. *)
From Coq Require Import Reals List Sorting.Sorted Sorting.Permutation.
From Verif Require Import Base Log_Model Cdl_Model.
Import ListNotations.
Open Scope R_scope.

Definition ascending (l : list R) : Prop := StronglySorted Rle l.
Definition descending (l : list R) : Prop := StronglySorted Rge l.
Definition total (l : list R) : R := fold_right Rplus 0 l.

(** Equation 7.5-1: the delay of a uniform draw *)
Definition delay_of (r_tau spread x : R) : R := - r_tau * spread * ln x.
(** Equation 7.5-3: the scale of delays with line of sight *)
Definition standard_scale (k : R) : R := 7705 / 10000 - 433 / 10000 * k + 2 / 10000 * k ^ 2 + 17 / 1000000 * k ^ 3.
(** Equation 7.5-5: the power of a delay and a shadowing in dB *)
Definition profile_power (r_tau spread t z : R) : R := exp (- t * (r_tau - 1) / (r_tau * spread)) * Rpower 10 (- z / 10).

(** [b] is weaker than [a] by more than 25 dB *)
Definition far_weaker (a b : R) : Prop := b < a * Rpower 10 (- 25 / 10).
Definition strongest (p : R) (l : list R) : Prop := In p l /\ forall q, In q l -> q <= p.

(** Parameters a scenario may have: positive spread and delay scaling, draws between zero and one *)
Definition sound (i : link) : Prop :=
  0 < i_r_tau i /\ 0 < i_spread i /\ i_xs i <> [] /\ length (i_zs i) = length (i_xs i) /\
  (forall x, In x (i_xs i) -> 0 < x <= 1) /\ 0 < i_distance i /\ 0 < i_carrier i.
Definition with_gain (i : link) (g : R) : link :=
  mkLink (i_r_tau i) (i_spread i) (i_rice i) (i_shadow_fading i) (i_los i) (i_xs i) (i_zs i) (i_pathloss i) (i_carrier i) (i_distance i) g (i_normalization i) (i_absorption i).
Definition with_absorption (i : link) (a : bool) : link :=
  mkLink (i_r_tau i) (i_spread i) (i_rice i) (i_shadow_fading i) (i_los i) (i_xs i) (i_zs i) (i_pathloss i) (i_carrier i) (i_distance i) (i_gain i) (i_normalization i) a.
Definition with_shadow_fading (i : link) (x : R) : link :=
  mkLink (i_r_tau i) (i_spread i) (i_rice i) x (i_los i) (i_xs i) (i_zs i) (i_pathloss i) (i_carrier i) (i_distance i) (i_gain i) (i_normalization i) (i_absorption i).
Definition with_carrier (i : link) (f : R) : link :=
  mkLink (i_r_tau i) (i_spread i) (i_rice i) (i_shadow_fading i) (i_los i) (i_xs i) (i_zs i) (i_pathloss i) f (i_distance i) (i_gain i) (i_normalization i) (i_absorption i).
Definition energy (i : link) : R := match sample_of i with Ok s => energy_scale s | Raise _ => 0 end.

(** [l] lists the delays of the draws of a link in ascending order *)
Definition ordered_delays (i : link) (l : list R) : Prop :=
  ascending l /\ Permutation (map (delay_of (i_r_tau i) (i_spread i)) (i_xs i)) l.
(** Equations 7.5-5, 7.5-6, 7.5-7 and 7.5-8: powers relative to the total for delays [l] in ascending order *)
Definition normalised (los : bool) (k : R) (ps : list R) : list R :=
  match ps with
  | [] => []
  | p :: r => if los then p / ((1 + k) * total ps) + k / (1 + k) :: map (fun q => q / ((1 + k) * total ps)) r else map (fun q => q / total ps) ps
  end.
Definition standard_powers (i : link) (l : list R) : list R :=
  normalised (i_los i) (Rpower 10 (i_rice i / 10)) (map (fun q => profile_power (i_r_tau i) (i_spread i) (fst q - hd 0 l) (snd q)) (combine l (i_zs i))).
(** [f] decides which numbers are not weaker than [a] by more than 25 dB *)
Definition selects (f : R -> bool) (a : R) : Prop := forall p, f p = true <-> ~ far_weaker a p.
(** All clusters of a link: pairs of delays and powers, without oxygen absorption *)
Definition clusters (i : link) (l : list R) : list (R * R) :=
  combine (map (fun t => (t - hd 0 l) / (if i_los i then rice_scale (i_rice i) else 1)) l)
          (map (fun p => p * Rpower 10 (- i_pathloss i / 10) * i_gain i ^ 2) (standard_powers i l)).
(** Two directions point the same way *)
Definition same_direction (a b : R) : Prop := exists n : Z, a - b = 2 * IZR n * PI.
