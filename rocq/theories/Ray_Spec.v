(** Vocabulary for the propagation over cluster delay lines. *)
From Coq Require Import List Reals Bool Arith.
From Coquelicot Require Import Complex.
From Verif Require Import Base Cplx Log_Model Rot_Model Ant_Model Chan_Model Chan_Spec Ray_Model.
Import ListNotations.
Open Scope R_scope.

(** Samples as they are drawn: at least twenty rays in every cluster, no negative delays, a positive bandwidth *)
Definition valid (s : sample) (e : ends) : Prop :=
  clusters s <> [] /\ (20 <= num_rays s)%nat /\ 0 <= delay_spread s /\ 0 <= delay_offset s /\ 0 < bandwidth e /\
  forall k, In k (clusters s) -> length (c_rays k) = num_rays s /\ 0 <= c_delay k.

(** The three parts of the rays of the two strongest clusters, by table 7.5-5 of TR 38.901, and their additional delays *)
Definition part (r : nat) : nat :=
  if (Nat.ltb r 8 || Nat.eqb r 18 || Nat.eqb r 19)%bool then 0%nat
  else if (Nat.ltb r 12 || Nat.eqb r 16 || Nat.eqb r 17)%bool then 1%nat else 2%nat.
Definition step (p : nat) : R := match p with 0%nat => 0 | 1%nat => 128 / 100 | _ => 256 / 100 end.
(** When ray r of cluster c should arrive: once *)
Definition due (s : sample) (c r : nat) (k : cluster) : list R :=
  if Nat.ltb c 2 then [c_delay k + delay_spread s * step (part r)] else [c_delay k].
(** When it does: rays of the first part of the first cluster and of the second part of the second cluster thrice, others never *)
Definition arrivals (s : sample) (c r : nat) (k : cluster) : list R :=
  if Nat.ltb c 2 then (if (Nat.ltb r 20 && Nat.eqb (part r) c)%bool then map (fun p => c_delay k + delay_spread s * step p) [0; 1; 2]%nat else [])
  else [c_delay k].

(** The delayed and weighted copy of the signal that travels along a path *)
Definition copy (s : sample) (e : ends) (p : path) : tap := Tap (int_of ((p_delay p + delay_offset s) * bandwidth e)) (fun r t i => (channel p r t * impulse p i)%C).
Fixpoint number {A} (i : nat) (l : list A) : list (nat * A) := match l with [] => [] | a :: l => (i, a) :: number (S i) l end.
(** All copies if rays arrive [at_times] *)
Definition copies (at_times : sample -> nat -> nat -> cluster -> list R) (s : sample) (e : ends) : list tap :=
  flat_map (fun k => flat_map (fun y => map (fun d => copy s e (ray_path s e (snd k) (snd y) d)) (at_times s (fst k) (fst y) (snd k)))
                              (number 0 (c_rays (snd k)))) (number 0 (clusters s)) ++
  (if line_of_sight s then [copy s e (los_path s e)] else []).

Definition real_total {A} (f : A -> R) (l : list A) : R := fold_right (fun a x => f a + x) 0 l.
(** Energy of the copies from antenna t to antenna r *)
Definition energy (l : list tap) (r t : nat) : R := real_total (fun p => Cmod (weight p r t 0%nat) ^ 2) l.
(** Every ray couples the two antennas with magnitude one *)
Definition unit_coupling (s : sample) (e : ends) (r t : nat) : Prop :=
  forall k y, In k (clusters s) -> In y (c_rays k) -> Cmod (couple (rx e (From_Spherical (aoa y) (zoa y)) r) (jones y) (tx e (From_Spherical (aod y) (zod y)) t)) = 1.

(** Path loss and gain: all powers scaled alike *)
Definition attenuated (a : R) (s : sample) : sample :=
  mkSample (line_of_sight s) (rice_factor s) (delay_offset s) (delay_spread s) (num_rays s)
           (map (fun k => mkCluster (c_delay k) (a * c_power k) (c_rays k)) (clusters s)).
(** The same sample without its line of sight *)
Definition scattered (s : sample) : sample := mkSample false (rice_factor s) (delay_offset s) (delay_spread s) (num_rays s) (clusters s).
(** The opposite link between devices whose antennas transmit as they receive *)
Definition swap (e : ends) : ends :=
  mkEnds (rx e) (tx e) (n_rx e) (n_tx e) (rx_position e) (tx_position e) (rx_velocity e) (tx_velocity e) (bandwidth e) (carrier e).
Definition symmetric (m : field * field) : Prop := snd (fst m) = fst (snd m).
Definition all_zero (m : field * field) : Prop := m = ((RtoC 0, RtoC 0), (RtoC 0, RtoC 0)).
