(** Vocabulary for powers of signals and their evaluation (C107). *)
From Coq Require Import List Reals Bool Arith.
From Coquelicot Require Import Complex.
From Verif Require Import Base Signal_Model Signal_Spec Pwr_Model.
Import ListNotations.
Open Scope R_scope.

(** [f 0 + ... + f (n - 1)] *)
Fixpoint sum_to (f : nat -> R) (n : nat) : R :=
  match n with
  | O => 0
  | S k => sum_to f k + f k
  end.

(** The sample of stream [s] at instant [t] (silence where nothing is stored) and its squared magnitude *)
Definition sample (x : csignal) (s t : nat) : C := nth s (value (RtoC 0) (num_streams x) x t) (RtoC 0).
Definition level (x : csignal) (s t : nat) : R := (fst (sample x s t))^2 + (snd (sample x s t))^2.
(** All blocks have the streams of the signal, are ordered and do not overlap *)
Definition sound (x : csignal) : Prop := well_formed (num_streams x) x.

(** Energy of stream [s] over all instants *)
Definition stream_energy (x : csignal) (s : nat) : R := sum_to (level x s) (num_samples x).
(** Number of instants at which a sparse signal stores samples *)
Definition stored (bs : list cblock) : nat := list_sum (map (fun b => length (k_cols b)) bs).
(** Stream [s] of a signal is silent / has the largest power [p] *)
Definition silent (x : csignal) (s : nat) : Prop := forall t, (t < num_samples x)%nat -> level x s t = 0.
Definition is_peak (x : csignal) (s : nat) (p : R) : Prop :=
  (exists t, (t < num_samples x)%nat /\ level x s t = p) /\ forall t, (t < num_samples x)%nat -> level x s t <= p.

(** The signal of the latest run in direction [d] that notified its callbacks *)
Fixpoint latest (d : direction) (ops : list op) : option csignal :=
  match ops with
  | [] => None
  | o :: r => match latest d r with
              | Some x => Some x
              | None => match o with
                        | Run d' x true => if same_direction d d' then Some x else None
                        | _ => None
                        end
              end
  end.

(** Number of evaluators created by a history *)
Definition created (t : target) (ops : list op) : nat := length (run t ops).

(** The signals added at grid point [c], in order *)
Definition added_at (c : list nat) (ops : list (list nat * csignal)) : list csignal :=
  map snd (filter (fun o => if list_eq_dec Nat.eq_dec (fst o) c then true else false) ops).
(** [c] is a point of the grid *)
Definition grid_point (dims c : list nat) : Prop := Forall2 lt c dims.
Definition is_dense (x : csignal) : Prop := match x with Dense d => List.Forall (fun c => length c = d_ns d) (d_cols d) | Sparse _ => False end.
