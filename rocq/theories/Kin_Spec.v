(** Vocabulary for kinematic chains: poses and attachments without any cache. *)
From Coq Require Import List Arith Bool.
From Verif Require Import Base Kin_Model.
Import ListNotations.

Section Spec.
Variables (T : Type) (mul : T -> T -> T) (inv : T -> T) (one : T).
Variable root : nat -> bool.

(** Where everything is *)
Record world := mkWorld { place : nat -> T; on : nat -> option nat }.
(** The transformation from a frame to the global coordinates: the product of the poses along its chain *)
Inductive global (w : world) : nat -> T -> Prop :=
| G_root : forall x, root x = true -> global w x one
| G_top : forall x, root x = false -> on w x = None -> global w x (place w x)
| G_step : forall x b t, root x = false -> on w x = Some b -> global w b t -> global w x (mul t (place w x)).
(** The length of the chain of a frame *)
Inductive depth (w : world) : nat -> nat -> Prop :=
| D_top : forall x, on w x = None -> depth w x 0
| D_step : forall x b n, on w x = Some b -> depth w b n -> depth w x (S n).
Definition shallow (limit : nat) (w : world) : Prop := forall x, exists n, n < limit /\ depth w x n.

Definition set {A} (f : nat -> A) (x : nat) (a : A) : nat -> A := fun y => if y =? x then a else f y.
(** What calls are meant to change *)
Definition act (w : world) (c : call T) : world :=
  match c with
  | Move _ x f => mkWorld (set (place w) x (f (place w x))) (on w)
  | SetBase _ x b => mkWorld (place w) (set (on w) x b)
  | AddLink _ b x => mkWorld (place w) (set (on w) x (Some b))
  | RemoveLink _ b x _ => if same_base (on w x) (Some b) then mkWorld (place w) (set (on w) x None) else w
  | _ => w
  end.
(** What calls are meant to return *)
Definition answer (w : world) (c : call T) (o : result (option T)) : Prop :=
  match c with
  | Move _ _ _ | SetBase _ _ _ | AddLink _ _ _ => o = Ok None
  | RemoveLink _ b x force => o = if force && negb (same_base (on w x) (Some b)) then Raise RuntimeError else Ok None
  | Forwards _ x => exists t, global w x t /\ o = Ok (Some t)
  | Backwards _ x => exists t, global w x t /\ o = Ok (Some (inv t))
  | Local _ x g => exists t, global w x t /\ o = Ok (Some (mul (inv t) g))
  | LocalFrame _ x y => exists t u, global w x t /\ global w y u /\ o = Ok (Some (mul (inv t) u))
  end.
(** Calls are made on frames, not on bases *)
Definition proper (c : call T) : Prop :=
  match c with
  | Move _ x _ | SetBase _ x _ | AddLink _ _ x | RemoveLink _ _ x _ | Backwards _ x | Local _ x _ | LocalFrame _ x _ => root x = false
  | Forwards _ _ => True
  end.
(** No call closes a cycle of frames or exceeds the depth of recursion *)
Fixpoint sound (limit : nat) (w : world) (l : list (call T)) : Prop :=
  match l with
  | [] => True
  | c :: l' => proper c /\ shallow limit (act w c) /\ sound limit (act w c) l'
  end.
Fixpoint answers (w : world) (l : list (call T)) (o : list (result (option T))) : Prop :=
  match l, o with
  | [], [] => True
  | c :: l', a :: o' => answer w c a /\ answers (act w c) l' o'
  | _, _ => False
  end.
End Spec.
