(** Vocabulary for simulation campaigns: what a drop of a scenario consists of. *)
From Coq Require Import String List Arith Bool Reals.
From Verif Require Import Base Sim_Model.
Import ListNotations.
Local Open Scope nat_scope.

Section Drop.
Context {W Chan State Trans Out Sig Inp Rec : Type}.
Variable p : physics W Chan State Trans Out Sig Inp Rec.
(** A drop of [n] devices at time [t]; stage number i uses the random draw [ws i] *)
Variables (n : nat) (t : R) (ws : nat -> W).
Definition channels_of : list Chan := p_realize _ _ _ _ _ _ _ _ p (ws 0).
Definition state_of (d : nat) : State := p_state _ _ _ _ _ _ _ _ p d t.
Definition transmission_of (d : nat) : Trans := p_transmit _ _ _ _ _ _ _ _ p d (state_of d) (ws 2).
Definition output_of (d : nat) : Out := p_output _ _ _ _ _ _ _ _ p d (transmission_of d) (Some (state_of d)) (ws 3).
Definition signal_of (d : nat) : Sig := p_signals _ _ _ _ _ _ _ _ p d (map output_of (seq 0 n)) (map state_of (seq 0 n)) channels_of.
Definition input_of (d : nat) : Inp := p_process _ _ _ _ _ _ _ _ p d (signal_of d) (state_of d) (output_of d) (ws 5).
Definition reception_of (d : nat) : Rec := p_receive _ _ _ _ _ _ _ _ p d (input_of d) (Some (state_of d)) (ws 6).
End Drop.

(** All artifacts a runner holds are those of one drop *)
Definition holds {W Chan State Trans Out Sig Inp Rec} (p : physics W Chan State Trans Out Sig Inp Rec) (t : R) (ws : nat -> W) (s : runner Chan State Trans Out Sig Inp Rec) : Prop :=
  let n := r_devices _ _ _ _ _ _ _ s in
  r_channels _ _ _ _ _ _ _ s = Some (channels_of p ws) /\ r_states _ _ _ _ _ _ _ s = Some (map (state_of p t) (seq 0 n)) /\
  r_trans _ _ _ _ _ _ _ s = Some (map (transmission_of p t ws) (seq 0 n)) /\ r_outs _ _ _ _ _ _ _ s = Some (map (output_of p t ws) (seq 0 n)) /\
  r_prop _ _ _ _ _ _ _ s = Some (map (signal_of p n t ws) (seq 0 n)) /\ r_inputs _ _ _ _ _ _ _ s = map (input_of p n t ws) (seq 0 n) /\
  r_recs _ _ _ _ _ _ _ s = map (reception_of p n t ws) (seq 0 n).

(** A stage is part of a history of calls *)
Definition sampled (ops : list op) : Prop := exists t, In (SampleStates t) ops.

(** A call of a stage succeeded and no device has been added since *)
Definition performed {W Chan State Trans Out Sig Inp Rec} (p : physics W Chan State Trans Out Sig Inp Rec) (draws : nat -> W) (stage : op) (n : nat) (ops : list op) : Prop :=
  exists before after, ops = before ++ stage :: after /\
    snd (step _ _ _ _ _ _ _ _ p draws (history _ _ _ _ _ _ _ _ p draws (new_runner _ _ _ _ _ _ _ n) before) stage) = None /\ ~ In AddDevice after.
