(** Vocabulary for the statements on the angles of rays. *)
From Coq Require Import List Reals Permutation.
From Verif Require Import Base Rot_Model Rot_Spec Ang_Model.
Import ListNotations.
Open Scope R_scope.

Definition total (l : list R) : R := fold_right Rplus 0 l.
Definition mean (l : list R) : R := total l / INR (length l).
(** Degrees to radians *)
Definition deg (x : R) : R := PI / 180 * x.

(** The row of a table closest to [n]; the first one of several *)
Definition closest_row (t : list (R * R)) (n : nat) (v : R) : Prop :=
  exists x before after, t = before ++ (x, v) :: after /\
    (forall e, In e before -> Rabs (x - INR n) < Rabs (fst e - INR n)) /\ (forall e, In e after -> Rabs (x - INR n) <= Rabs (fst e - INR n)).
(** The largest of some powers *)
Definition largest (l : list R) (m : R) : Prop := In m l /\ forall x, In x l -> x <= m.

(** TR 138.901, equation 7.5-10 and 7.5-15 *)
Definition azimuth_factor (los : bool) (c k : R) : R :=
  if los then c * (11035 / 10000 - 28 / 1000 * k - 2 / 1000 * k ^ 2 + 1 / 10000 * k ^ 3) else c.
Definition zenith_factor (los : bool) (c k : R) : R :=
  if los then c * (13086 / 10000 + 339 / 10000 * k - 77 / 10000 * k ^ 2 + 2 / 10000 * k ^ 3) else c.
(** Equations 7.5-9, 7.5-11, 7.5-14 and 7.5-16 without the line of sight: degrees of cluster [i] *)
Definition azimuth_of (c : clusters) (m factor spread : R) (i : nat) : R :=
  nth i (signs c) 0 * (2 * (spread / (14 / 10)) * sqrt (ln (m / nth i (powers c) 0)) / factor) + spread / 7 * nth i (variations c) 0.
Definition zenith_of (c : clusters) (m factor spread offset : R) (i : nat) : R :=
  nth i (signs c) 0 * (spread * ln (m / nth i (powers c) 0) / factor) + spread / 7 * nth i (variations c) 0 + offset.
(** Equations 7.5-11 and 7.5-12, 7.5-16 and 7.5-17: with a line of sight, the first cluster is put into its direction *)
Definition centred (los : bool) (towards : R) (a : nat -> R) (i : nat) : R := if los then towards + (a i - a 0%nat) else towards + a i.

(** The rays of a cluster: twenty, centred at [c] degrees, with a root mean square of [s] degrees (up to 0.01 percent of the square) *)
Definition around (row : list R) (s c : R) : Prop :=
  length row = 20%nat /\ mean row = deg c /\
  exists v, 1 <= v <= 10001 / 10000 /\ mean (map (fun x => (x - deg c) ^ 2) row) = v * deg s ^ 2.

(** Azimuth [a] and zenith [z] are the direction from one pose to another in the local coordinates of the former. *)
Definition looks (from to : transformation) (a z : R) : Prop :=
  mv (rotation from) (From_Spherical a z) =
  vscale (/ norm (vsub (translation to) (translation from))) (vsub (translation to) (translation from)).

(** The draws of a link with [n] clusters *)
Definition coupled (n : nat) (l : list (list nat)) : Prop := length l = n /\ forall r, In r l -> Permutation r (seq 0 20).
Definition same_clusters (n : nat) (c : clusters) : Prop :=
  length (powers c) = n /\ length (signs c) = n /\ length (variations c) = n /\ forall p, In p (powers c) -> 0 < p.
Record well_formed (d : draws) (n : nat) : Prop := mkWF {
  wf_n : (0 < n)%nat;
  wf_a : same_clusters n (azimuths d);
  wf_z : same_clusters n (zeniths d);
  wf_p : powers (zeniths d) = powers (azimuths d);
  wf_1 : coupled n (coupling_aoa d); wf_2 : coupled n (coupling_zoa d); wf_3 : coupled n (coupling_aod d); wf_4 : coupled n (coupling_zod d) }.
