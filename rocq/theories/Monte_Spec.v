(** Specification vocabulary for the Monte Carlo engine. *)
From Coq Require Import List Arith Bool.
From Verif Require Import Base Monte_Model.
Import ListNotations.

(** What clients may do with the queue manager, in any interleaving. *)
Inductive qop := Next | Disable (c : coord).
(** What is observable: a section handed out, or a disable request. *)
Inductive qevent := Emit (c : coord) | Disabled (c : coord).

Fixpoint q_run (q : queue) (ops : list qop) : queue * list qevent :=
  match ops with
  | [] => (q, [])
  | Next :: t => let (q1, b) := next_batch q in
                 let (q2, ev) := q_run q1 t in (q2, map Emit b ++ ev)
  | Disable c :: t => let (q2, ev) := q_run (disable_section q c) t in (q2, Disabled c :: ev)
  end.

(** How often section [c] was handed out. *)
Definition emissions (c : coord) (ev : list qevent) : nat :=
  length (filter (fun e => match e with Emit x => coord_eqb x c | Disabled _ => false end) ev).

(** [c] is a point of the grid with the given numbers of sample points. *)
Definition in_grid (dims : list nat) (c : coord) : Prop := Forall2 lt c dims.

(** The stored outputs could have been produced from scratch: every stage's output is
    what the stage yields for the current configuration, one of its arguments,
    some random draw and the currently stored outputs. *)
Definition consistent {V A W} (f : nat -> list nat -> A -> (nat -> V) -> W -> V)
  (num_stages : nat) (args : nat -> list A) (cfg : list nat) (outs : nat -> V) : Prop :=
  forall s, s < num_stages -> exists a w, In a (args s) /\ outs s = f s cfg a outs w.

(** A stage only reads outputs of earlier stages. *)
Definition causal {V A W} (f : nat -> list nat -> A -> (nat -> V) -> W -> V) : Prop :=
  forall s cfg a o1 o2 w, (forall k, k < s -> o1 k = o2 k) -> f s cfg a o1 w = f s cfg a o2 w.

(** Stage [s] neither reads dimension [d] of the configuration ... *)
Definition ignores_dim {V A W} (f : nat -> list nat -> A -> (nat -> V) -> W -> V) (s d : nat) : Prop :=
  forall cfg1 cfg2 a o w, length cfg1 = length cfg2 ->
    (forall k, k <> d -> nth k cfg1 0 = nth k cfg2 0) -> f s cfg1 a o w = f s cfg2 a o w.
(** ... nor the outputs of stages up to [l]. *)
Definition ignores_upto {V A W} (f : nat -> list nat -> A -> (nat -> V) -> W -> V) (s l : nat) : Prop :=
  forall cfg a o1 o2 w, (forall k, l < k -> o1 k = o2 k) -> f s cfg a o1 w = f s cfg a o2 w.

(** The impact range declared for dimension number [d] is truthful. *)
Definition truthful {V A W} (f : nat -> list nat -> A -> (nat -> V) -> W -> V)
  (stages : list nat) (d : nat) (dim : dimension) : Prop :=
  match d_first dim with
  | None => True
  | Some name => exists i, index_of name stages = Some i /\ forall s, s < i -> ignores_dim f s d
  end /\
  match d_last dim with
  | None => True
  | Some name => exists i, index_of name stages = Some i /\
      forall s, i < s -> s < length stages -> ignores_dim f s d /\ ignores_upto f s i
  end.

(** Samples a section is credited with in a progress report: a section disabled by
    request counts as finished. *)
Definition credit (N : nat) (ev : list qevent) (c : coord) : nat :=
  if existsb (fun e => match e with Disabled x => coord_eqb x c | Emit _ => false end) ev
  then N else emissions c ev.

(** The dimensions are already in the order of the stages they first affect. *)
Fixpoint key_sorted (stages : list nat) (l : list dimension) : Prop :=
  match l with
  | [] => True
  | d :: t => Forall (fun x => sort_key stages d <= sort_key stages x) t /\ key_sorted stages t
  end.
