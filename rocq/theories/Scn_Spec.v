(** Vocabulary for the modes of scenarios (C108). *)
From Coq Require Import String List Arith Bool.
From Verif Require Import Base Scn_Model.
Import ListNotations.
Open Scope nat_scope.

(** A state a user can bring a scenario into, starting from a new one and any files *)
Definition reachable (v : flavour) (w : world) : Prop := exists k ops, w = run v (new_scenario, k) ops.

(** Calls that neither stop an ongoing recording nor start a replay *)
Definition keeps_recording (o : op) : bool := match o with Stop | Replay _ _ _ => false | _ => true end.
(** Calls that do not touch an ongoing replay other than by requesting drops (recordings are refused meanwhile) *)
Definition quiet (o : op) : bool := match o with Drop _ _ | AddDevice _ | Record _ _ _ => true | _ => false end.
(** The drops of a history generated without timestamp *)
Definition plain_drops (ops : list op) : list drop :=
  flat_map (fun o => match o with Drop false d => [d] | _ => [] end) ops.
(** The drops stored for a campaign, if any *)
Definition stored (k : disk) (f : nat) (c : campaign_name) : option (list drop) :=
  match k f with Some x => x c | None => None end.
Definition campaign_name_ok (c : campaign_name) : Prop := c <> Some "state"%string.

(** A drop fits the devices: one transmission per transmitter, one input per receiver *)
Definition fits (ds : list device) (d : drop) : Prop :=
  Forall2 (fun x l => length l = transmitters x) ds (d_transmissions d) /\ Forall2 (fun x l => length l = receivers x) ds (d_inputs d).
(** What operator [o] of device [i] sent and received in a drop *)
Definition sent (d : drop) (i o : nat) : option nat := match nth_error (d_transmissions d) i with Some l => nth_error l o | None => None end.
Definition got (d : drop) (i o : nat) : option nat := match nth_error (d_inputs d) i with Some l => nth_error l o | None => None end.
(** How often an event occurs *)
Definition note_dec : forall a b : note, {a = b} + {a <> b}.
Proof. decide equality; apply Nat.eq_dec. Defined.
Definition times (n : note) (l : list note) : nat := count_occ note_dec l n.
