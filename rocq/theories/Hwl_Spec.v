(** Vocabulary for runs of the hardware loop: sections of a grid, artifacts recorded for a section, order-preserving selections. *)
From Coq Require Import List Arith Bool.
From Verif Require Import Base Hwl_Model.
Import ListNotations.

(** A section names a point of every dimension *)
Definition section_of (sizes section : list nat) : Prop := Forall2 lt section sizes.
Definition same_section (a b : list nat) : bool := if list_eq_dec Nat.eq_dec a b then true else false.
(** Number of entries that belong to a section *)
Definition entries {T} (section : list nat) (l : list (list nat * T)) : nat := length (filter (fun x => same_section (fst x) section) l).
(** The artifacts of one evaluator at one section *)
Definition recorded {A} (evaluator : nat) (section : list nat) (rows : list (list nat * list A)) : list (option A) :=
  map (fun r => nth_error (snd r) evaluator) (filter (fun r => same_section (fst r) section) rows).
(** A list with some elements left out *)
Inductive selection {T} : list T -> list T -> Prop :=
  | sel_nil : selection [] []
  | sel_keep x l m : selection l m -> selection (x :: l) (x :: m)
  | sel_skip x l m : selection l m -> selection l (x :: m).
(** Nothing raises *)
Definition succeeds {S T} (f : S -> S * result T) : Prop := forall s, exists s' x, f s = (s', Ok x).
Definition never (_ : nat) : bool := false.
Definition always (_ : nat) : bool := true.
(** The first of n samples numbered from one, nothing for zero *)
Definition nth_sample {X} (xs : list X) (i : nat) : option X := match i with O => None | Datatypes.S k => nth_error xs k end.
Fixpoint ascending (l : list nat) : Prop := match l with [] => True | a :: l' => Forall (fun b => a <= b) l' /\ ascending l' end.
