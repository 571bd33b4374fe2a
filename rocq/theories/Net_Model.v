(** Simulation scenarios: registration of devices, channel links, trigger groups and propagation between all devices.
    Models hermespy/simulation/scenario.py (SimulationScenario 181-364, realize_triggers 397-433, propagate 518-611),
    core/scenario.py (Scenario.__init__ 88-119, add_device 130-157, device_index 188-205), simulation/simulated_device.py
    (TriggerRealization 69-147, TriggerModel 162-207, trigger models 224-398, trigger_model setter 1420-1427, scenario setter 1327-1337),
    channel/channel.py (scenario setter 788-791).
    Objects are numbers, compared by identity.  Signals, channel realizations and device states are abstract. *)
From Coq Require Import List ZArith Bool Arith Reals.
From Verif Require Import Base.
Import ListNotations.

(** ** Devices and channels of scenarios *)
(** A link joins an unordered pair of devices (frozenset, 343): the pair with the smaller device first *)
Definition key (a b : nat) : nat * nat := (Nat.min a b, Nat.max a b).
Definition key_eqb (k l : nat * nat) : bool := (Nat.eqb (fst k) (fst l) && Nat.eqb (snd k) (snd l))%bool.
Definition mem (a : nat) (l : list nat) : bool := existsb (Nat.eqb a) l.
(** The attributes of a scenario; [modifiable] stands for the default mode (core/scenario.py 49-69) *)
Record scenario := Scenario { devices : list nat; modifiable : bool; default_channel : nat; links : list ((nat * nat) * nat); channels : list nat }.
(** Scenarios by identity, the scenario a device and a channel were assigned to *)
Record world := World { scn : nat -> scenario; owner : nat -> option nat; assigned : nat -> option nat }.
Definition put (w : world) (s : nat) (v : scenario) : world := World (fun k => if Nat.eqb k s then v else scn w k) (owner w) (assigned w).
(** __init__ (190-228), without devices: the default channel is one of the scenario's channels, its scenario is not set *)
Definition new_scenario (default : nat) : scenario := Scenario [] true default [] [default].
(** Dictionary access and update *)
Fixpoint lookup (k : nat * nat) (l : list ((nat * nat) * nat)) : option nat :=
  match l with [] => None | (k', c) :: l => if key_eqb k k' then Some c else lookup k l end.
Fixpoint update (k : nat * nat) (c : nat) (l : list ((nat * nat) * nat)) : list ((nat * nat) * nat) :=
  match l with [] => [(k, c)] | (k', c') :: l => if key_eqb k k' then (k, c) :: l else (k', c') :: update k c l end.
(** list.remove: the first occurrence *)
Fixpoint remove_first (c : nat) (l : list nat) : list nat := match l with [] => [] | d :: l => if Nat.eqb c d then l else d :: remove_first c l end.

(** add_device (core/scenario.py 130-157, simulation/scenario.py 240-243).  The device joins the list before its scenario is set, which
    fails if it already has another one (simulated_device.py 1327-1337) *)
Definition add_device (w : world) (s d : nat) : world * result unit :=
  let v := scn w s in
  if mem d (devices v) then (w, Raise ValueError)
  else if negb (modifiable v) then (w, Raise RuntimeError)
  else
    let w1 := put w s (Scenario (devices v ++ [d]) (modifiable v) (default_channel v) (links v) (channels v)) in
    match owner w d with
    | Some o => if Nat.eqb o s then (w1, Ok tt) else (w1, Raise NotImplementedError)
    | None => (World (scn w1) (fun k => if Nat.eqb k d then Some s else owner w k) (assigned w), Ok tt)
    end.
(** set_channel (316-356) *)
Definition set_channel (w : world) (s a b c : nat) : world * result unit :=
  let v := scn w s in
  if negb (mem a (devices v)) then (w, Raise ValueError)
  else if negb (mem b (devices v)) then (w, Raise ValueError)
  else
    let old := lookup (key a b) (links v) in
    let links' := update (key a b) c (links v) in
    let '(chs, fails) := match old with
      | Some o => if mem o (map snd links') then (channels v, false)
                  else if mem o (channels v) then (remove_first o (channels v), false) else (channels v, true)
      | None => (channels v, false)
      end in
    if fails then (put w s (Scenario (devices v) (modifiable v) (default_channel v) links' chs), Raise ValueError)
    else if mem c chs then (put w s (Scenario (devices v) (modifiable v) (default_channel v) links' chs), Ok tt)
    else let w1 := put w s (Scenario (devices v) (modifiable v) (default_channel v) links' (chs ++ [c])) in
         (World (scn w1) (owner w1) (fun k => if Nat.eqb k c then Some s else assigned w k), Ok tt).
(** Recording and replaying (core/scenario.py 368-566) change the mode; here only whether devices may be added matters *)
Definition set_mode (w : world) (s : nat) (m : bool) : world * result unit :=
  let v := scn w s in (put w s (Scenario (devices v) m (default_channel v) (links v) (channels v)), Ok tt).
(** channel (251-277) *)
Definition channel (w : world) (s a b : nat) : result nat :=
  let v := scn w s in
  if negb (mem a (devices v)) then Raise ValueError
  else if negb (mem b (devices v)) then Raise ValueError
  else Ok (match lookup (key a b) (links v) with Some c => c | None => default_channel v end).
(** device_channels (279-314); [active] tells channels with a positive gain.  The result is a set *)
Definition device_channels (w : world) (active : nat -> bool) (s d : nat) (active_only : bool) : result (list nat) :=
  let v := scn w s in
  if negb (mem d (devices v)) then Raise ValueError
  else
    let found := filter (fun e => ((Nat.eqb d (fst (fst e)) || Nat.eqb d (snd (fst e))) && (negb active_only || active (snd e)))%bool) (links v) in
    Ok (map snd found ++ (if Nat.ltb (length found) (length (devices v)) then [default_channel v] else [])).
(** device_index (core/scenario.py 188-205) and list.index *)
Fixpoint index (a : nat) (l : list nat) : result nat :=
  match l with [] => Raise ValueError | b :: l => if Nat.eqb a b then Ok 0 else do i <- index a l; Ok (S i) end.
Definition device_index (w : world) (s d : nat) : result nat := index d (devices (scn w s)).

(** Calls that change scenarios *)
Inductive op := AddDevice (s d : nat) | SetChannel (s a b c : nat) | SetMode (s : nat) (m : bool).
Definition step (w : world) (o : op) : world * result unit :=
  match o with AddDevice s d => add_device w s d | SetChannel s a b c => set_channel w s a b c | SetMode s m => set_mode w s m end.
Definition run (w : world) (l : list op) : world := fold_left (fun w o => fst (step w o)) l w.
(** New scenarios with the given default channels; nothing is assigned to them yet *)
Definition start (default : nat -> nat) : world := World (fun s => new_scenario (default s)) (fun _ => None) (fun _ => None).

(** ** Propagation between all devices (518-611) *)
Section Propagation.
Context {Sig Smp State Rea : Type}.
(** Sampling a realization between two device states, sampling it in the other direction, and propagating a signal.  Propagation returns the
    received signal and the transmitted one after the call, since channels may write to it *)
Context (sample : Rea -> State -> State -> Smp) (reciprocal : Rea -> Smp -> State -> State -> Smp) (propagate : Smp -> Sig -> Sig * Sig).
(** The matrix under construction, by receiving and transmitting device, and the transmitted signals *)
Definition matrix := nat -> nat -> option Sig.
Definition write (m : matrix) (i j : nat) (v : Sig) : matrix := fun k l => if (Nat.eqb k i && Nat.eqb l j)%bool then Some v else m k l.
Definition replace (tx : nat -> Sig) (i : nat) (v : Sig) : nat -> Sig := fun k => if Nat.eqb k i then v else tx k.
(** One pass of the inner loop (579-609); [link a b] is the position of the channel linking devices a and b in the list of channels *)
Definition visit (link : nat -> nat -> result nat) (rea : nat -> Rea) (st : nat -> State) (alpha beta : nat) (acc : matrix * (nat -> Sig)) : result (matrix * (nat -> Sig)) :=
  let '(m, tx) := acc in
  do c <- link alpha beta;
  let smp := sample (rea c) (st alpha) (st beta) in
  let '(y, x) := propagate smp (tx alpha) in
  let m := write m beta alpha y in
  let tx := replace tx alpha x in
  if Nat.eqb alpha beta then Ok (m, tx)
  else
    let back := reciprocal (rea c) smp (st beta) (st alpha) in
    let '(y, x) := propagate back (tx beta) in
    Ok (write m alpha beta y, replace tx beta x).
Definition visits (n : nat) : list (nat * nat) := flat_map (fun a => map (fun b => (a, b)) (seq 0 (S a))) (seq 0 n).
Definition propagate_all (n : nat) (link : nat -> nat -> result nat) (rea : nat -> Rea) (st : nat -> State) (tx : nat -> Sig) : result (matrix * (nat -> Sig)) :=
  fold_left (fun acc v => do a <- acc; visit link rea st (fst v) (snd v) a) (visits n) (Ok (fun _ _ => None, tx)).
End Propagation.
(** The position of the channel linking the i-th and the j-th device (584-585) *)
Definition link_of (w : world) (s i j : nat) : result nat :=
  let v := scn w s in
  match nth_error (devices v) i, nth_error (devices v) j with
  | Some a, Some b => do c <- channel w s a b; index c (channels v)
  | _, _ => Raise IndexError
  end.

(** ** Triggers (simulated_device.py) *)
(** The devices of each trigger model, the trigger model of each device *)
Record groups := Groups { members : nat -> list nat; model : nat -> nat }.
(** Sets as lists without repetitions: set.add, set.discard *)
Definition set_add (d : nat) (l : list nat) : list nat := if mem d l then l else d :: l.
Definition set_discard (d : nat) (l : list nat) : list nat := filter (fun e => negb (Nat.eqb d e)) l.
Definition put_members (g : groups) (t : nat) (l : list nat) : groups := Groups (fun k => if Nat.eqb k t then l else members g k) (model g).
(** remove_device (187-195) *)
Definition remove_from (g : groups) (t d : nat) : groups := put_members g t (set_discard d (members g t)).
(** trigger_model setter (1420-1427) and add_device (174-185), which call each other: the setter first stores the model, so that
    add_device called by the setter finds it in place *)
Definition set_model (g : groups) (d t : nat) : groups :=
  let g1 := remove_from g (model g d) d in
  let g2 := Groups (members g1) (fun k => if Nat.eqb k d then t else model g1 k) in
  put_members g2 t (set_add d (members g2 t)).
Definition add_to (g : groups) (t d : nat) : groups :=
  let g1 := if Nat.eqb (model g d) t then g else set_model g d t in
  put_members g1 t (set_add d (members g1 t)).
(** Device construction (1228-1231): every device starts in a trigger model of its own, [own d] *)
Definition alone (own : nat -> nat) (ds : list nat) : groups := fold_left (fun g d => put_members g (own d) (set_add d (members g (own d)))) ds (Groups (fun _ => []) own).
Inductive trigger_op := SetModel (d t : nat) | AddTo (t d : nat) | RemoveFrom (t d : nat).
Definition trigger_step (g : groups) (o : trigger_op) : groups :=
  match o with SetModel d t => set_model g d t | AddTo t d => add_to g t d | RemoveFrom t d => remove_from g t d end.
(** realize_triggers (397-433): one realization for each trigger model, in order of first use; [realize n] is the outcome of the n-th call *)
Fixpoint realize_triggers {A} (realize : nat -> nat -> A) (trigger : nat -> nat) (ds : list nat) (seen : list (nat * A)) : list A :=
  match ds with
  | [] => []
  | d :: ds => match find (fun e => Nat.eqb (trigger d) (fst e)) seen with
               | Some e => snd e :: realize_triggers realize trigger ds seen
               | None => let v := realize (length seen) (trigger d) in v :: realize_triggers realize trigger ds (seen ++ [(trigger d, v)])
               end
  end.

(** ** Trigger realizations (simulated_device.py 69-147) *)
(** Conversion of a float to an integer: truncation towards zero *)
Definition truncate (x : R) : Z := if Rle_dec 0 x then Int_part x else (- Int_part (- x))%Z.
(** __init__ (79-106): number of offset samples and sampling rate *)
Definition trigger_realization (n : Z) (rate : R) : result (Z * R) :=
  if Z.ltb n 0 then Raise ValueError else if Rle_dec rate 0 then Raise ValueError else Ok (n, rate).
(** trigger_delay (120-124) and compute_num_offset_samples (126-147) over the real numbers *)
Definition trigger_delay (t : Z * R) : R := (IZR (fst t) / snd t)%R.
Definition offset_samples (t : Z * R) (rate delay : R) : result Z :=
  if Rle_dec rate 0 then Raise ValueError else Ok (truncate ((trigger_delay t - delay) * rate)%R).
(** The same in double precision without initial delay, for integer sampling rates and offsets *)
From Coq Require Import Floats.SpecFloat.
Definition f64 (n : Z) : spec_float := binary_normalize 53 1024 n 0 false.
Definition f64_truncate (x : spec_float) : Z :=
  match x with
  | S754_finite s m e => let v := if Z.leb 0 e then (Zpos m * 2 ^ e)%Z else (Zpos m / 2 ^ (- e))%Z in if s then (- v)%Z else v
  | _ => 0%Z
  end.
Definition f64_offset_samples (n r rate : Z) : Z := f64_truncate (SFmul 53 1024 (SFdiv 53 1024 (f64 n) (f64 r)) (f64 rate)).
