(** Sampling of channel realizations and hooks notified about samples.
    Models hermespy/channel/channel.py: ChannelSampleHook (51-104), LinkState (107-178), ChannelSample.propagate (306-379),
    ChannelRealization.sample and reciprocal_sample (530-577, 644-701), Channel.gain, sample_hooks, add_sample_hook, remove_sample_hook,
    realize, realization, propagate (793-973); _realize of channels, all of which pass copies of hooks and gain (e.g. ideal.py 155).
    Simplifications: numbers are real; of a device's state (simulated_device.py 1532-1545) identifier, time, carrier frequency, sampling
    rate and numbers of antennas are kept; hooks are identified by the order in which they were created; sets are lists in the order of
    insertion; what is specific to a channel (_sample, _reciprocal_sample, _propagate, expected_energy_scale) is a parameter that does not
    fail; values that do not belong to a run (unknown realizations or samples) raise an IndexError. *)
From Coq Require Import List Reals Bool Arith.
From Verif Require Import Base.
Import ListNotations.
Open Scope R_scope.

(** A device and its state at a time (simulated_device.py 1516-1545, core/device.py DeviceState) *)
Record device := Device { ident : nat; dev_carrier : R; dev_rate : R; dev_tx : nat; dev_rx : nat }.
Record dstate := State { device_id : nat; st_time : R; st_carrier : R; st_rate : R; num_tx : nat; num_rx : nat }.
Definition state_of (d : device) (t : R) : dstate := State (ident d) t (dev_carrier d) (dev_rate d) (dev_tx d) (dev_rx d).
(** What transmitter and receiver may be: devices or states (channel.py 532-533) *)
Inductive terminal := ADevice (d : device) | AState (s : dstate).
(** LinkState (116-148) *)
Record link := Link { tx : dstate; rx : dstate; carrier : R; bandwidth : R; time : R }.
(** ChannelSampleHook (58-104): the devices are compared by their identifiers *)
Record hook := Hook { hook_id : nat; for_tx : option nat; for_rx : option nat }.
Definition concerns (filter : option nat) (id : nat) : bool := match filter with None => true | Some i => Nat.eqb id i end.
Definition called (h : hook) (t r : nat) : bool := concerns (for_tx h) t && concerns (for_rx h) r.
(** float(args[i]) if len(args) > i else None (538-539, 659-661, 672-673) *)
Definition float_arg (args : list (option R)) (i : nat) : result (option R) :=
  match nth_error args i with None => Ok None | Some None => Raise TypeError | Some (Some x) => Ok (Some x) end.
Definition or_else (o : option R) (d : R) : R := match o with Some x => x | None => d end.
(** The link sampled by ChannelRealization.sample (530-568); keyword arguments beyond the time stamp are not looked at *)
Definition sampled_link (t r : terminal) (timestamp : option R) (args : list (option R)) (kwargs : option R * option R) : result link :=
  let ts := or_else timestamp 0 in
  do c <- float_arg args 0;
  do b <- float_arg args 1;
  match t, r with
  | ADevice t, ADevice r => let s := state_of t ts in Ok (Link s (state_of r ts) (or_else c (st_carrier s)) (or_else b (st_rate s)) ts)
  | AState t, AState r => Ok (Link t r (or_else c (st_carrier t)) (or_else b (st_rate t)) ts)
  | _, _ => Raise ValueError
  end.
(** The link sampled by ChannelRealization.reciprocal_sample (644-692) *)
Definition reciprocal_link (sample : link) (t r : terminal) (args : list (option R)) (kwargs : option R * option R * option R) : result link :=
  match t, r with
  | ADevice t, ADevice r =>
      do ts <- float_arg args 0;
      do c <- float_arg args 1;
      do b <- float_arg args 2;
      let s := state_of t (or_else ts 0) in Ok (Link s (state_of r (or_else ts 0)) (or_else c (st_carrier s)) (or_else b (st_rate s)) (or_else ts 0))
  | AState t, AState r =>
      do c <- float_arg args 0;
      do b <- float_arg args 1;
      Ok (Link t r (or_else c (st_carrier t)) (or_else b (st_rate t)) (time sample))
  | _, _ => Raise ValueError
  end.

(** A signal: its blocks and what is known about it (core/signal_model.py Signal.Create) *)
Record signal (B : Type) := Signal { streams : nat; blocks : list B; rate : R; carrier_frequency : R; noise_power : R; delay : R }.
Arguments Signal {B}. Arguments streams {B}. Arguments blocks {B}. Arguments rate {B}. Arguments carrier_frequency {B}. Arguments noise_power {B}. Arguments delay {B}.
Section Channel.
  Context {B : Type}.
  (** expected_energy_scale and _propagate of a sample of a realization with some gain *)
  Variable scale : link -> R -> R.
  Variable propagate_block : link -> R -> B -> B.
  (** ChannelSample.propagate (342-379) *)
  Definition propagate (l : link) (gain : R) (s : signal B) : result (signal B) :=
    if Rle_dec (scale l gain) 0 then Ok (Signal (num_rx (rx l)) [] (rate s) (carrier_frequency s) (noise_power s) (delay s))
    else if negb (Nat.eqb (streams s) (num_tx (tx l))) then Raise ValueError
    else Ok (Signal (num_rx (rx l)) (map (propagate_block l gain) (blocks s)) (bandwidth l) (carrier l) (noise_power s) (delay s)).

  (** A channel (742-763), with what it has handed out: realizations (hooks and gain), samples, and calls of hooks *)
  Record channel := Channel { hooks : list hook; gain : R; created : nat; realizations : list (list hook * R); cached : option nat;
                              samples : list (link * R); calls : list (nat * nat) }.
  Definition new_channel (g : R) : result channel := if Rlt_dec g 0 then Raise ValueError else Ok (Channel [] g 0 [] None [] []).
  Inductive op :=
  | AddHook (t r : option nat)
  | RemoveHook (id : nat)
  | SetGain (g : R)
  | Realize (cache : bool)
  | Realization
  | Sample (k : nat) (t r : terminal) (timestamp : option R) (args : list (option R)) (kwargs : option R * option R)
  | Reciprocal (k : nat) (sample : nat) (t r : terminal) (args : list (option R)) (kwargs : option R * option R * option R)
  | Propagate (s : signal B) (t r : terminal) (timestamp : option R).
  Inductive output := Nothing | NewHook (id : nat) | ARealization (k : nat) | ASample (l : link) | ASignal (s : signal B).
  (** hook(sample, ...) for every hook of a realization (574-575, 698-699) *)
  Definition notify (hs : list hook) (l : link) (sample : nat) : list (nat * nat) :=
    map (fun h => (hook_id h, sample)) (filter (fun h => called h (device_id (tx l)) (device_id (rx l))) hs).
  Definition take (w : channel) (k : nat) (l : result link) : channel * result output :=
    match nth_error (realizations w) k, l with
    | None, _ => (w, Raise IndexError)
    | _, Raise e => (w, Raise e)
    | Some (hs, g), Ok l =>
        (Channel (hooks w) (gain w) (created w) (realizations w) (cached w) (samples w ++ [(l, g)]) (calls w ++ notify hs l (length (samples w))), Ok (ASample l))
    end.
  (** realize (877-898) *)
  Definition realize (w : channel) (cache : bool) : channel :=
    Channel (hooks w) (gain w) (created w) (realizations w ++ [(hooks w, gain w)]) (if cache then Some (length (realizations w)) else cached w) (samples w) (calls w).
  Definition step (w : channel) (o : op) : channel * result output :=
    match o with
    | AddHook t r => (Channel (hooks w ++ [Hook (created w) t r]) (gain w) (S (created w)) (realizations w) (cached w) (samples w) (calls w), Ok (NewHook (created w)))
    | RemoveHook id => (Channel (filter (fun h => negb (Nat.eqb (hook_id h) id)) (hooks w)) (gain w) (created w) (realizations w) (cached w) (samples w) (calls w), Ok Nothing)
    | SetGain g => if Rlt_dec g 0 then (w, Raise ValueError)
                   else (Channel (hooks w) g (created w) (realizations w) (cached w) (samples w) (calls w), Ok Nothing)
    | Realize cache => (realize w cache, Ok (ARealization (length (realizations w))))
    | Realization => (w, match cached w with None => Raise AttributeError | Some k => Ok (ARealization k) end)
    | Sample k t r timestamp args kwargs => take w k (sampled_link t r timestamp args kwargs)
    | Reciprocal k s t r args kwargs =>
        match nth_error (samples w) s with None => (w, Raise IndexError) | Some (l, _) => take w k (reciprocal_link l t r args kwargs) end
    | Propagate s t r timestamp => (* 961-973 *)
        let w := realize w true in
        match take w (length (realizations w) - 1) (sampled_link t r timestamp [Some (carrier_frequency s); Some (rate s)] (None, None)) with
        | (w, Ok (ASample l)) => (w, do p <- propagate l (gain w) s; Ok (ASignal p))
        | (w, Ok _) => (w, Raise AssertionError)
        | (w, Raise e) => (w, Raise e)
        end
    end.
  Definition run (w : channel) (ops : list op) : channel := fold_left (fun w o => fst (step w o)) ops w.
End Channel.
Arguments channel : clear implicits. Arguments op : clear implicits. Arguments output : clear implicits.
