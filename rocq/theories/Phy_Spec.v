(** Vocabulary for physical devices, in terms of calls and what they returned. *)
From Coq Require Import List Arith ZArith Bool.
From Verif Require Import Base Phy_Model.
Import ListNotations.
Local Open Scope nat_scope.

Section Spec.
Variables (A P : Type) (zero : A).
(** The signal returned by the last successful transmission of a history *)
Fixpoint last_transmission (before : option (signal A)) (l : list (call A * answer A P)) : option (signal A) :=
  match l with
  | [] => before
  | (CTransmit _ _, ATransmission _ _ (Ok m)) :: l' => last_transmission (Some m) l'
  | _ :: l' => last_transmission before l'
  end.

(** Signals a call plays directly, before the correction: that of a direct trigger, and silence when estimating noise *)
Definition played (c : settings) (k : call A) : option (signal A * bool) :=
  match k with
  | CDirect _ s b => Some (s, b)
  | CNoise _ n _ => Some (Sig (d_rate c) (d_carrier c) (repeat (repeat zero n) (d_tx c)), true)
  | _ => None
  end.
(** Calls that raised an exception *)
Definition refused (a : answer A P) : Prop :=
  match a with
  | ATransmission _ _ (Raise _) | ASignal _ _ (Raise _) | AProcessed _ _ (Raise _) | APower _ _ (Raise _) | ADone _ _ (Raise _) => True
  | _ => False
  end.

(** What is sent when a signal is played with or without calibration *)
Definition sent (correct : list (list A) -> result (list (list A))) (s : signal A) (calibrate : bool) (t : signal A) : Prop :=
  if calibrate then exists x, correct (s_streams s) = Ok x /\ t = Sig (s_rate s) (s_carrier s) x else t = s.

(** Transmit and receive memory of a device that receives what it sends: a transmission fills the first, a trigger copies it to the second,
    a signal played directly ends up in both *)
Inductive memories (c : settings) (correct : list (list A) -> result (list (list A))) : signal A * signal A -> list (call A * answer A P) -> signal A * signal A -> Prop :=
| M_done m : memories c correct m [] m
| M_transmit m ts x l m' : memories c correct (x, snd m) l m' -> memories c correct m ((CTransmit A ts, ATransmission A P (Ok x)) :: l) m'
| M_trigger m l m' : memories c correct (fst m, fst m) l m' -> memories c correct m ((CTrigger A, ADone A P (Ok tt)) :: l) m'
| M_played m k a s b t l m' :
    played c k = Some (s, b) -> ~ refused a -> sent correct s b t -> memories c correct (t, t) l m' -> memories c correct m ((k, a) :: l) m'
| M_refused m k a l m' : refused a -> memories c correct m l m' -> memories c correct m ((k, a) :: l) m'
| M_other m k a l m' :
    match k with CTransmit _ _ | CTrigger _ | CDirect _ _ _ | CNoise _ _ _ => False | _ => True end ->
    memories c correct m l m' -> memories c correct m ((k, a) :: l) m'.

(** What a receiver with the given selected ports is handed *)
Definition handed (ports : option (list nat)) (s x : signal A) : Prop :=
  match ports with
  | None => x = s
  | Some l => s_rate x = s_rate s /\ s_carrier x = s_carrier s /\ Forall2 (fun i r => nth_error (s_streams s) i = Some r) l (s_streams x)
  end.
(** All selected ports exist *)
Definition ports_exist (ports : option (list nat)) (n : nat) : Prop := match ports with None => True | Some l => forall i, In i l -> i < n end.

(** Devices that differ at most in the settings of the filter *)
Definition filter_settings (b : bool) (w : Z) (c : settings) : settings :=
  Settings (d_rate c) (d_carrier c) (d_tx c) (d_rx c) (d_receivers c) (adaptive_sampling c) b w.
(** Mixing a signal to another carrier keeps the numbers of streams and samples *)
Definition keeps_shape (rt : routines A P) : Prop := forall r c s, map (@length A) (mixed rt r c s) = map (@length A) (s_streams s).
End Spec.

(** A radio whose reception is its transmission, for the configured number of samples *)
Definition echo {A} (zero : A) (tx : list (list A)) (n : nat) : list (list (list A)) :=
  [map (fun r => firstn n (r ++ repeat zero n)) tx].

(** The signal of the last successful transmission of a dummy, and the one in its receive memory; [b] tells whether it receives its transmissions *)
Inductive dummy_memories {A} (zero : A) (c : dummy_settings) : bool * signal A * signal A -> list (dcall A * danswer A) -> bool * signal A * signal A -> Prop :=
| DM_done m : dummy_memories zero c m [] m
| DM_transmit b u w ts x l m : dummy_memories zero c (b, x, w) l m -> dummy_memories zero c (b, u, w) ((YTransmit A ts, YSignal A (Ok x)) :: l) m
| DM_refused b u w ts e l m : dummy_memories zero c (b, u, w) l m -> dummy_memories zero c (b, u, w) ((YTransmit A ts, YSignal A (Raise e)) :: l) m
| DM_trigger u w a l m : dummy_memories zero c (true, u, u) l m -> dummy_memories zero c (true, u, w) ((YTrigger A, a) :: l) m
| DM_silence u w x a l m :
    s_rate x = y_rate c -> s_carrier x = y_carrier c -> num_streams x = num_streams u ->
    (forall r, In r (s_streams x) -> length r = num_samples u /\ forall y, In y r -> y = zero) ->
    dummy_memories zero c (false, u, x) l m -> dummy_memories zero c (false, u, w) ((YTrigger A, a) :: l) m
| DM_set b b' u w a l m : dummy_memories zero c (b', u, w) l m -> dummy_memories zero c (b, u, w) ((YSet A b', a) :: l) m
| DM_other b u w k a l m :
    match k with YDirect _ _ _ | YProcess _ _ | YReceive _ _ => True | _ => False end ->
    dummy_memories zero c (b, u, w) l m -> dummy_memories zero c (b, u, w) ((k, a) :: l) m.
