(** Vocabulary for sampling channels. *)
From Coq Require Import List Reals Bool Arith.
From Verif Require Import Base Smp_Model.
Import ListNotations.
Open Scope R_scope.

(** Whether an operation creates a hook, or a realization *)
Definition creates_hook {B} (o : op B) : bool := match o with AddHook _ _ => true | _ => false end.
Definition creates_realization {B} (o : op B) : bool := match o with Realize _ | Propagate _ _ _ _ => true | _ => false end.
Definition count {B} (f : op B -> bool) (ops : list (op B)) : nat := length (filter f ops).
(** After these operations the hook numbered id is registered, for these devices *)
Definition registered {B} (ops : list (op B)) (id : nat) (t r : option nat) : Prop :=
  exists before after, ops = before ++ AddHook t r :: after /\ count creates_hook before = id /\ ~ In (RemoveHook id) after.
(** A filter admits a device *)
Definition admits (filter : option nat) (id : nat) : Prop := filter = None \/ filter = Some id.
(** Identifier of a device or state *)
Definition identifier (t : terminal) : nat := match t with ADevice d => ident d | AState s => device_id s end.
Definition both_devices (t r : terminal) : Prop := exists d e, t = ADevice d /\ r = ADevice e.
Definition both_states (t r : terminal) : Prop := exists d e, t = AState d /\ r = AState e.
(** The hooks that are notified about a sample are, each once, those registered by some operations that admit both devices *)
Definition notified {B} (ops : list (op B)) (t r : nat) (sample : nat) (new : list (nat * nat)) : Prop :=
  NoDup new /\ forall id s, In (id, s) new <-> s = sample /\ exists ft fr, registered ops id ft fr /\ admits ft t /\ admits fr r.
(** The gain after some operations: the last valid one set *)
Fixpoint gain_after {B} (g : R) (ops : list (op B)) : R :=
  match ops with [] => g | SetGain g' :: r => gain_after (if Rlt_dec g' 0 then g else g') r | _ :: r => gain_after g r end.
