(** Specification for physical scenarios: what the members of a system send at the same time. *)
From Coq Require Import List Arith.
From Verif Require Import Base.
Import ListNotations.

(** All transmitting devices send their new signals, the other members what was uploaded to them before, devices outside the system nothing *)
Definition sent_together {S} (sent before : nat -> option S) (members transmitting : list nat) (signal : nat -> S -> Prop) : Prop :=
  forall e, (In e transmitting -> exists t, signal e t /\ sent e = Some t) /\
            (In e members -> ~ In e transmitting -> sent e = before e) /\
            (~ In e members -> sent e = None).
(** Only one device sends *)
Definition sent_alone {S} (sent : nat -> option S) (d : nat) (t : S) : Prop := sent d = Some t /\ forall e, e <> d -> sent e = None.
