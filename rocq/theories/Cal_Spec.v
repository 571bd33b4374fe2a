(** Vocabulary for the properties of attached calibrations. *)
From Coq Require Import List Arith Lia Bool.
From Verif Require Import Base Cal_Model.

(** The worlds users can reach, with calls nesting at most [fuel] deep *)
Inductive reachable (fuel : nat) : world -> Prop :=
  | reachable_start : reachable fuel empty_world
  | reachable_step : forall w o w', reachable fuel w -> writable w o = true -> step fuel w o = Ok w' -> reachable fuel w'.

Definition device_exists (w : world) (d : nat) : Prop := d < num_devices w.
Definition calibration_exists (w : world) (c : nat) : Prop := c < num_calibrations w.

(** In [w'] property [k] of device [d] shows a calibration of the right class that did not exist in [w] and knows its device *)
Definition reset (w w' : world) (d : nat) (k : kind) : Prop :=
  let c := slot w' d k in ~ calibration_exists w c /\ calibration_exists w' c /\ kind_of w' c = k /\ device_of w' c = Some d.

(** Between [w] and [w'] calibration [c] moved from where it was to [v], the property [k] of its previous device now shows a new default calibration,
    the property [k] of its new device shows [c], and nothing else has changed *)
Definition moved (w w' : world) (c : nat) (v : option nat) : Prop :=
  let k := kind_of w c in
  device_of w' c = v
  /\ (forall c', calibration_exists w c' -> c' <> c -> device_of w' c' = device_of w c')
  /\ (forall c', calibration_exists w c' -> kind_of w' c' = kind_of w c')
  /\ (forall d, v = Some d -> slot w' d k = c)
  /\ (forall d, device_of w c = Some d -> v <> Some d -> reset w w' d k)
  /\ (forall d k', device_exists w d -> (k' <> k \/ v <> Some d /\ device_of w c <> Some d) -> slot w' d k' = slot w d k')
  /\ num_devices w' = num_devices w.
