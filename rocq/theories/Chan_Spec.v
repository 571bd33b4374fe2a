(** Vocabulary for channels: superpositions of delayed and weighted copies of the transmitted streams. *)
From Coq Require Import List Reals Arith.
From Coquelicot Require Import Complex.
From Verif Require Import Base Cplx Chan_Model.
Import ListNotations.
Open Scope R_scope.

(** One delayed copy: the weight from transmitting antenna t to receiving antenna r for the i-th transmitted sample *)
Record tap := Tap { td : nat; weight : nat -> nat -> nat -> C }.
Fixpoint total {A} (f : A -> C) (l : list A) : C := match l with [] => RtoC 0 | a :: l => (f a + total f l)%C end.
(** What the j-th sample of stream r consists of *)
Definition received (taps : list tap) (s : blk) (r j : nat) : C :=
  total (fun p => csum (fun t => if (Nat.leb (td p) j && Nat.ltb j (td p + samples s))%bool
                                 then (weight p r t (j - td p)%nat * x s t (j - td p)%nat)%C else RtoC 0) (streams s)) taps.
(** Blocks with the same samples *)
Definition same_samples (a b : blk) : Prop :=
  streams a = streams b /\ samples a = samples b /\ forall r j, (r < streams a)%nat -> (j < samples a)%nat -> x a r j = x b r j.
(** Sums, multiples and beginnings of blocks *)
Definition add_blk (a b : blk) : blk := Blk (streams a) (samples a) (offset a) (fun r j => (x a r j + x b r j)%C).
Definition scale_blk (k : C) (a : blk) : blk := Blk (streams a) (samples a) (offset a) (fun r j => (k * x a r j)%C).
Definition agree_before (n : nat) (a b : blk) : Prop :=
  streams a = streams b /\ samples a = samples b /\ forall r j, (r < streams a)%nat -> (j < n)%nat -> (j < samples a)%nat -> x a r j = x b r j.
(** Samples of a signal on the grid starting at its own delay zero: blocks may start anywhere, later ones win, elsewhere it is zero *)
Fixpoint wave (l : list blk) (r j : nat) : C :=
  match l with
  | [] => RtoC 0
  | b :: l => if existsb (fun c => Nat.leb (offset c) j && Nat.ltb j (offset c + samples c))%bool l then wave l r j
              else if (Nat.leb (offset b) j && Nat.ltb j (offset b + samples b))%bool then x b r (j - offset b)%nat else RtoC 0
  end.
(** Blocks follow each other with at least [gap] samples between them *)
Fixpoint spaced (gap : nat) (l : list blk) : Prop :=
  match l with
  | b :: ((c :: _) as l') => (offset b + samples b + gap <= offset c)%nat /\ spaced gap l'
  | _ => True
  end.
