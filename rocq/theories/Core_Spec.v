(** Vocabulary for the statements about hooks (C44) and random nodes (C43). *)
From Coq Require Import List Arith Bool ZArith.
From Verif Require Import Base Core_Model.
Import ListNotations.

(** * Hooks *)

(** Hooks are numbered in the order of the [AddCallback] calls that create them;
    [created ops] lists, for every hook, its hookable. *)
Fixpoint created (ops : list hop) : list nat :=
  match ops with
  | [] => []
  | AddCallback hb _ :: t => hb :: created t
  | _ :: t => created t
  end.

(** Does operation [o], executed after the history [past], register / unregister
    hook [h] at hookable [hb]? *)
Definition registers (past : list hop) (o : hop) (hb h : nat) : Prop :=
  match o with
  | AddCallback hb' _ => hb' = hb /\ h = length (created past)
  | AddHook hb' h' => hb' = hb /\ h' = h /\ h < length (created past)
  | _ => False
  end.
Definition unregisters (past : list hop) (o : hop) (hb h : nat) : Prop :=
  match o with
  | RemoveHook hb' h' => hb' = hb /\ h' = h
  | Unhook h' => h' = h /\ nth_error (created past) h = Some hb
  | _ => False
  end.

(** Hook [h] is registered at [hb] after the history: it was registered at some
    point and not unregistered since. *)
Definition registered (ops : list hop) (hb h : nat) : Prop :=
  exists before o after, ops = before ++ o :: after /\ registers before o hb h /\
    forall mid o' rest, after = mid ++ o' :: rest ->
      ~ unregisters (before ++ o :: mid) o' hb h.

(** * Random nodes *)

(** No node is created or re-seeded without a seed. *)
Definition always_seeded (o : rop) : Prop :=
  match o with
  | New _ s => s <> None
  | SetSeed _ s => s <> None
  | _ => True
  end.

(** The operation assigns the seed or the mother of node [n]. *)
Definition reassigns (n : nat) (o : rop) : Prop :=
  match o with
  | SetSeed k _ => k = n
  | SetMother k _ => k = n
  | _ => False
  end.

(** Starting at node [x], following mothers of nodes without generator, one
    arrives at [y]. *)
Inductive ancestor (s : rstate_) : nat -> nat -> Prop :=
  | anc_refl x : ancestor s x x
  | anc_step x m y nd : nth_error (rs_nodes s) x = Some nd -> rn_gen nd = None ->
      rn_mother nd = Some m -> ancestor s m y -> ancestor s x y.

(** A history in which no assigned mother descends from the node it is assigned to. *)
Fixpoint acyclic_ops {V} (stream : source -> nat -> V) (s : rstate_) (ops : list rop) : Prop :=
  match ops with
  | [] => True
  | o :: t =>
      match o with
      | SetMother n (Some m) => m < length (rs_nodes s) /\ ~ ancestor s m n
      | New (Some m) _ => m < length (rs_nodes s)
      | _ => True
      end /\ acyclic_ops stream (fst (rstep V stream s o)) t
  end.

(** Numbers drawn from the generator of node [n]. *)
Definition drawn_from {V} (n : nat) (outs : list (result (nat * list V))) : list V :=
  flat_map (fun r => match r with
                     | Ok (r, vs) => if r =? n then vs else []
                     | Raise _ => []
                     end) outs.
