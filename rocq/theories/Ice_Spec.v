(** Vocabulary of the properties of ideal channel estimation *)
From Coq Require Import List Reals Bool Arith.
From Coquelicot Require Import Complex.
From Verif Require Import Base Cplx Ofdm_Model Sc_Model Ice_Model.
Import ListNotations.
Local Open Scope nat_scope.

(** The channel does not change, its taps are [f] *)
Definition static (h : state) (f : nat -> C) : Prop := forall t d, t < samples h -> d < taps h -> coefficient h t d = f d.
Definition constant (n d : nat) (f : nat -> C) : state := mkState n d (fun _ => f).
(** Samples of a word [x] received over [d] constant taps [f], with the last [p] samples sent in advance as a cyclic prefix, which the receiver removes *)
Definition prefixed (p : nat) (x : list C) : list C := skipn (length x - p) x ++ x.
Definition over (f : nat -> C) (d p : nat) (x : list C) : list C :=
  tab (length x) (fun t => csum (fun k => f k * at0 (prefixed p x) (p + t - k))%C d).
(** Products of symbols and channel states *)
Definition products (a b : list C) : list C := map (fun p => (fst p * snd p)%C) (combine a b).
