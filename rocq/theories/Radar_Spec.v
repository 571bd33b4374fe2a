(** Vocabulary of the radar detector properties. *)
From Coq Require Import Reals List Arith Bool.
From Verif Require Import Base Radar_Model.
Import ListNotations.
Open Scope R_scope.

(** Index triples within the shape of a cube *)
Definition in_cube (c : cube) (i : nat * nat * nat) : Prop :=
  let '(a, d, r) := i in (a < na c)%nat /\ (d < nd c)%nat /\ (r < nr c)%nat.
(** Bins match the shape and velocities can be computed *)
Definition wf (c : cube) : Prop :=
  length (angle_bins c) = na c /\ length (doppler_bins c) = nd c /\ length (range_bins c) = nr c /\ 0 < carrier_frequency c.
Definition not_empty (c : cube) : Prop := (0 < na c)%nat /\ (0 < nd c)%nat /\ (0 < nr c)%nat.
Definition nonnegative (c : cube) : Prop := forall i, in_cube c i -> 0 <= at_cell c i.
(** Some range bin is not negative, as required by point clouds *)
Definition ranges_ok (c : cube) : Prop := exists r, In r (range_bins c) /\ 0 <= r.
Definition is_max (c : cube) (m : R) : Prop :=
  (exists i, in_cube c i /\ at_cell c i = m) /\ forall i, in_cube c i -> at_cell c i <= m.
Definition is_min (c : cube) (m : R) : Prop :=
  (exists i, in_cube c i /\ at_cell c i = m) /\ forall i, in_cube c i -> m <= at_cell c i.
(** Cells sharing a face *)
Definition adjacent (i j : nat * nat * nat) : Prop :=
  let '(a, d, r) := i in let '(a', d', r') := j in
  (d = d' /\ r = r' /\ (a' = S a \/ a = S a')) \/
  (a = a' /\ r = r' /\ (d' = S d \/ d = S d')) \/
  (a = a' /\ d = d' /\ (r' = S r \/ r = S r')).

(** Unit vector of a direction *)
Definition direction (azimuth zenith : R) : vec := (cos azimuth * sin zenith, sin azimuth * sin zenith, cos zenith).
(** The point describing a cell: at the cell's range in the cell's direction, moving along that
    direction with the velocity of the cell's Doppler frequency *)
Definition describes (c : cube) (i : nat * nat * nat) (p : point) : Prop :=
  let '(a, d, r) := i in
  exists azimuth zenith range doppler,
    nth_error (angle_bins c) a = Some (azimuth, zenith) /\ nth_error (range_bins c) r = Some range /\
    nth_error (doppler_bins c) d = Some doppler /\
    p_position p = vscale range (direction azimuth zenith) /\
    p_velocity p = vscale (doppler * speed_of_light / carrier_frequency c) (direction azimuth zenith) /\
    p_power p = at_cell c i.
Definition norm2 (v : vec) : R := let '(x, y, z) := v in x * x + y * y + z * z.
Definition scale_cube (k : R) (c : cube) : cube :=
  mkCube (na c) (nd c) (nr c) (fun a d r => k * data c a d r) (angle_bins c) (doppler_bins c) (range_bins c) (carrier_frequency c).

(** *** Constant false alarm rate *)
(** Training cells of a cell under test: in the window, but not in the guard window *)
Definition within (n x y : nat) : bool := ((x <=? y + n) && (y <=? x + n))%nat.
Definition trains (f : cfar) (d r d' r' : nat) : bool :=
  within (fst (training f) + fst (guard f)) d d' && within (snd (training f) + snd (guard f)) r r' &&
  negb (within (fst (guard f)) d d' && within (snd (guard f)) r r').
(** Training cells of the cell (d, r) within a plane of n by m cells *)
Definition training_cells (f : cfar) (n m d r : nat) : list (nat * nat) :=
  filter (fun e => trains f d r (fst e) (snd e)) (list_prod (seq 0 n) (seq 0 m)).
Definition sum_list (l : list R) : R := fold_right Rplus 0 l.
