(** Vocabulary for the statements on path losses and line of sight probabilities. *)
From Coq Require Import Reals List.
From Verif Require Import Base Rot_Model Pl_Model.
Open Scope R_scope.

(** Same carrier and heights, only the distance differs. *)
Definition same_heights (p q : params) : Prop :=
  fc p = fc q /\ base_height p = base_height q /\ terminal_height p = terminal_height q.
(** Parameters of a link between distinct positions: the vertical distance is the difference of the heights. *)
Definition geometric (p : params) : Prop :=
  0 < d3 p /\ 0 <= d2 p /\ terminal_height p <= base_height p /\ d3 p ^ 2 = d2 p ^ 2 + (base_height p - terminal_height p) ^ 2.
(** Decibels of a number *)
Definition dB (c k d q f : R) : R := c + k * (ln d / ln 10) + q * (ln (f / 10 ^ 9) / ln 10).

(** TR 138.901, table 7.4.2-1, urban macrocells with terminals up to 13 metres, as a function of the horizontal distance *)
Definition standard_macro_probability (d : R) : R := 18 / d + exp (- d / 63) * (1 - 18 / d).
(** TR 138.901, table 7.4.4-1, rural macrocells with line of sight beyond the breakpoint: the loss at the breakpoint plus 40 dB per decade *)
Definition standard_rural (p : params) : R := rural_1 p (rural_breakpoint p) + 40 * (ln (d3 p / rural_breakpoint p) / ln 10).

(** Always line of sight: whatever the draw from the unit interval *)
Definition certain (c : scenario) (p : params) : Prop := forall u, 0 <= u < 1 -> decide c u p = LOS.
(** Never line of sight *)
Definition never (c : scenario) (p : params) : Prop := forall u, 0 <= u < 1 -> decide c u p = NLOS.
