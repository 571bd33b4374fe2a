(** Vocabulary for scenarios. *)
From Coq Require Import List ZArith Arith.
From Verif Require Import Base Net_Model.
Import ListNotations.

(** The same link: the same two devices in either order *)
Definition same_link (a b a' b' : nat) : Prop := (a = a' /\ b = b') \/ (a = b' /\ b = a').
(** Being registered with a scenario *)
Definition registered (w : world) (s d : nat) : Prop := In d (devices (scn w s)).
(** Worlds reached from new scenarios by any calls, failing ones included *)
Definition reachable (default : nat -> nat) (w : world) : Prop := exists l, w = run (start default) l.
(** Calls that never assign its own default channel to a link of scenario s *)
Definition default_only_by_default (default : nat -> nat) (s : nat) (l : list op) : Prop := forall a b, ~ In (SetChannel s a b (default s)) l.
(** A link's channel *)
Definition links_over (w : world) (s a b c : nat) : Prop := channel w s a b = Ok c.
(** Calls addressing existing devices only *)
Definition concerns (ds : list nat) (o : trigger_op) : Prop := match o with SetModel d _ => In d ds | AddTo _ d => In d ds | RemoveFrom _ d => In d ds end.
(** Every device is listed by its own trigger model, and by no other one *)
Definition consistent (ds : list nat) (g : groups) : Prop := forall d t, In d ds -> (In d (members g t) <-> model g d = t).
