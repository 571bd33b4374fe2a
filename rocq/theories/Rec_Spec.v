(** Vocabulary for recordings: what was recorded in a campaign, and when a replayed object equals a recorded one. *)
From Coq Require Import List Arith Bool ZArith String.
From Verif Require Import Base Ser_Model Ser_Spec Rec_Model.
Import ListNotations.
Open Scope nat_scope.

Definition campaign_dec : forall a b : option string, {a = b} + {a <> b}.
Proof. decide equality. apply string_dec. Defined.

(** ** Vocabulary *)
(** Campaigns must not be named like the groups of a recording *)
Definition valid_campaign (c : option string) : Prop :=
  match c with None => True | Some n => ~ In n ["arrays"%string; "drops"%string; "state"%string] end.
(** An acyclic object of a suitable class *)
Definition recordable (r : registry) (e : string) (fuel : nat) (x : snapshot) : Prop :=
  exists content rank, well_formed r (fst x) content rank /\ instance_of r (fst x) e (snd x) /\ S (rank (snd x)) < fuel.
Definition equals_snapshot (x : snapshot) (H' : heap) (o' : obj) : Prop :=
  exists o, nth_error (fst x) (snd x) = Some o /\ isomorphic (fst x) o H' o'.
(** What was recorded in a campaign *)
Definition in_campaign (c : option string) (x : session) : bool := if campaign_dec c (campaign x) then true else false.
Definition drops_of (c : option string) (l : list session) : list snapshot := List.concat (map drops (filter (in_campaign c) l)).
Fixpoint first_state (c : option string) (l : list session) : option snapshot :=
  match l with
  | [] => None
  | x :: l' => if in_campaign c x then match state x with Some o => Some o | None => first_state c l' end else first_state c l'
  end.
