(** Vocabulary for the statements about the output and the input of simulated devices (C80, C81). *)
From Coq Require Import List Reals ZArith Bool Arith.
From Coquelicot Require Import Complex.
From Verif Require Import Base Cplx Signal_Model Signal_Spec Dev_Model.
Import ListNotations.
Local Open Scope nat_scope.

(** Sample [t] of stream [i]: silence outside of the signal *)
Definition sample (d : cdense) (t i : nat) : C := nth i (nth t (d_cols d) []) (RtoC 0).
(** A dense signal of [n] streams *)
Definition dense_of (n : nat) (d : cdense) : Prop := d_ns d = n /\ Forall (fun c => length c = n) (d_cols d).
Fixpoint total {A} (f : A -> C) (l : list A) : C := match l with [] => RtoC 0 | a :: l => (f a + total f l)%C end.
(** The transmissions there are *)
Definition present (ts : list (option cdense)) : list cdense := flat_map (fun t => match t with Some d => [d] | None => [] end) ts.
(** Before position [k] nothing with any samples is transmitted *)
Definition first_sounding (ts : list (option cdense)) (k : nat) : Prop :=
  forall i d, i < k -> nth_error ts i = Some (Some d) -> d_cols d = [].
(** Stream [i] of an impinging signal with delay [d], at instant [t] after the trigger *)
Definition impinging_at (n : nat) (p : csignal * Z) (t i : nat) : C := nth i (valueZ (RtoC 0) n (fst p) (Z.of_nat t - snd p)) (RtoC 0).
Definition stream_of (s : csignal) (n t i : nat) : C := nth i (value (RtoC 0) n s t) (RtoC 0).
(** Dense signals of [n] streams, none of which starts after all signals before it have ended *)
Fixpoint continuous (n : nat) (until : Z) (l : list (csignal * Z)) : Prop :=
  match l with
  | [] => True
  | (x, d) :: r => (exists y, x = Dense y /\ dense_of n y) /\ (d <= until)%Z /\ continuous n (Z.max until (d + Z.of_nat (num_samples x))) r
  end.
(** Without a selection all ports are selected *)
Definition selects (sel : option (list nat)) (i : nat) : bool := match sel with None => true | Some idx => existsb (Nat.eqb i) idx end.
