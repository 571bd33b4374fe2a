(** Scenarios of physical devices: hermespy/hardware_loop/scenario.py (PhysicalScenario), hermespy/hardware_loop/uhd/system.py (UsrpSystem),
    hermespy/hardware_loop/audio/scenario.py (AudioScenario) and what they call of hermespy/core/scenario.py.
    Simplifications: devices are numbers; their signal processing is a set of functions that may raise; the drivers, the air and the package
    controlling USRPs are a memory of the last upload and recording of each device, and a function from the uploads transmitted at the same time
    to what each device records; downloads before the first recording are RuntimeErrors; whether the package refuses names used twice,
    and sound cards playing while others are started, are not modelled. *)
From Coq Require Import List Arith Bool.
From Verif Require Import Base.
Import ListNotations.
Local Open Scope nat_scope.

Section Scenario.
Variables (S St P Q : Type).
(** What device e hears if the uploads are transmitted together *)
Variable air : (nat -> option S) -> nat -> S.

(** Last uploads and recordings of the devices and the number of executions so far *)
Record world := World { uploads : nat -> option S; recordings : nat -> option S; executions : nat }.
Definition put (f : nat -> option S) (d : nat) (s : S) : nat -> option S := fun e => if e =? d then Some s else f e.
Definition mem (d : nat) (l : list nat) : bool := existsb (Nat.eqb d) l.
(** _upload of a device *)
Definition upload (w : world) (d : nat) (s : S) : world := World (put (uploads w) d s) (recordings w) (executions w).
(** uhd/system.py 66-67: all [members] of the system transmit and record at the same time; for a single device physical_device.py 157-160 *)
Definition execute (w : world) (members : list nat) : world :=
  let sent := fun e => if mem e members then uploads w e else None in
  World (uploads w) (fun e => if mem e members then Some (air sent e) else recordings w e) (Datatypes.S (executions w)).
(** _download of a device *)
Definition download (w : world) (d : nat) : result S := match recordings w d with Some s => Ok s | None => Raise RuntimeError end.

(** Devices: the mixed signal they transmit, the processing of a signal, the receptions of their operators *)
Variable produce : nat -> option St -> result S.
Variable process : nat -> option St -> S -> result P.
Variable operate : nat -> option St -> P -> result Q.

(** core/scenario.py 639-641 with physical_device.py 446-475: all uploads before an exception stay *)
Fixpoint transmit_each (l : list (nat * option St)) (w : world) : world * result (list S) :=
  match l with
  | [] => (w, Ok [])
  | (d, s) :: l =>
    match produce d s with
    | Raise e => (w, Raise e)
    | Ok t => let (w', r) := transmit_each l (upload w d t) in (w', match r with Ok ts => Ok (t :: ts) | Raise e => Raise e end)
    end
  end.
Definition given {X} (n : nat) (l : option (list (option X))) : list (option X) := match l with None => repeat None n | Some l => l end.
Definition transmit_devices (devices : list nat) (states : option (list (option St))) (w : world) : world * result (list S) :=
  transmit_each (combine devices (given (length devices) states)) w.

(** hardware_loop/scenario.py 122 with physical_device.py 555-557, 584-585 *)
Definition input_of (w : world) (d : nat) (i : option S) : result S := match i with None => download w d | Some s => Ok s end.
Definition process_one (w : world) (x : nat * option St * option S) : result P :=
  let '(d, s, i) := x in match input_of w d i with Ok y => process d s y | Raise e => Raise e end.
(** core/scenario.py 675-713 *)
Definition receive_operators (devices : list nat) (inputs : list P) (states : list (option St)) : result (list Q) :=
  if negb (length inputs =? length devices) then Raise ValueError
  else mapM (fun x => let '(d, i, s) := x in operate d s i) (combine (combine devices inputs) states).
(** hardware_loop/scenario.py 116-131 *)
Definition receive_devices (devices : list nat) (signals : option (list (option S))) (states : option (list (option St))) (w : world) : result (list (P * Q)) :=
  let states := given (length devices) states in
  do inputs <- mapM (process_one w) (combine (combine devices states) (given (length devices) signals));
  do receptions <- receive_operators devices inputs states;
  Ok (combine inputs receptions).

(** 134-145: [members] are the devices of the triggered system *)
Definition drop (devices members : list nat) (w : world) : world * result (list S * list (P * Q)) :=
  let (w1, t) := transmit_devices devices None w in
  match t with
  | Raise e => (w1, Raise e)
  | Ok ts => let w2 := execute w1 members in (w2, match receive_devices devices None None w2 with Ok rs => Ok (ts, rs) | Raise e => Raise e end)
  end.

(** 75-82 *)
Definition trigger_direct (devices : list nat) (direct : list S -> list nat -> bool -> world -> world * result (list S))
    (transmissions : list S) (selected : option (list nat)) (calibrate : bool) (w : world) : world * result (list S) :=
  let ds := match selected with None => devices | Some l => l end in
  if negb (length transmissions =? length ds) then (w, Raise ValueError) else direct transmissions ds calibrate w.

(** uhd/system.py 69-81 *)
Definition usrp_direct (members : list nat) (transmissions : list S) (devices : list nat) (calibrate : bool) (w : world) : world * result (list S) :=
  let w1 := fold_left (fun w x => upload w (snd x) (fst x)) (combine transmissions devices) w in
  let w2 := execute w1 members in
  (w2, mapM (download w2) devices).

(** physical_device.py 489-546: accepts compares carrier and sampling rate; correct and clean are the calibrations of antennas and leakage *)
Variable accepts : nat -> S -> bool.
Variable correct : nat -> S -> S.
Variable clean : nat -> S -> S -> S.
Definition device_direct (d : nat) (s : S) (calibrate : bool) (w : world) : world * result S :=
  if negb (accepts d s) then (w, Raise ValueError)
  else let t := if calibrate then correct d s else s in
       let w' := execute (upload w d t) [d] in
       (w', match download w' d with Ok r => Ok (if calibrate then clean d t r else r) | Raise e => Raise e end).
(** audio/scenario.py 37-41: devices are triggered with the default calibrate=True *)
Fixpoint audio_each (l : list (nat * S)) (w : world) : world * result (list S) :=
  match l with
  | [] => (w, Ok [])
  | (d, s) :: l =>
    match device_direct d s true w with
    | (w', Raise e) => (w', Raise e)
    | (w', Ok r) => let (w'', rs) := audio_each l w' in (w'', match rs with Ok rs => Ok (r :: rs) | Raise e => Raise e end)
    end
  end.
Definition audio_direct (transmissions : list S) (devices : list nat) (calibrate : bool) (w : world) : world * result (list S) :=
  audio_each (combine devices transmissions) w.
End Scenario.
Arguments World {S}. Arguments uploads {S}. Arguments recordings {S}. Arguments executions {S}.

(** * Registering devices at USRP systems *)
(** Devices of the scenario, names and devices registered at the controlled system, and whether the scenario is in its default mode *)
Record usrp_system := UsrpSystem { sys_devices : list nat; sys_names : list (nat * nat); sys_default : bool }.
Definition empty_system : usrp_system := UsrpSystem [] [] true.
(** core/scenario.py 144-157 *)
Definition scenario_add (s : usrp_system) (d : nat) : usrp_system * result unit :=
  if existsb (Nat.eqb d) (sys_devices s) then (s, Raise ValueError)
  else if negb (sys_default s) then (s, Raise RuntimeError)
  else (UsrpSystem (sys_devices s ++ [d]) (sys_names s) (sys_default s), Ok tt).
(** uhd/system.py 55-64 *)
Definition usrp_add (s : usrp_system) (d : nat) : usrp_system * result unit :=
  scenario_add (UsrpSystem (sys_devices s) (sys_names s ++ [(length (sys_devices s), d)]) (sys_default s)) d.
(** core/scenario.py 116-119 called by uhd/system.py 26-30 before the controlled system exists *)
Definition usrp_new (devices : option (list nat)) : result usrp_system :=
  match devices with None => Ok empty_system | Some [] => Ok empty_system | Some (_ :: _) => Raise AttributeError end.
(** Adding devices, and recording or replaying (core/scenario.py 368-566) *)
Inductive usrp_op := AddUsrp (d : nat) | SetDefault (b : bool).
Definition usrp_step (s : usrp_system) (o : usrp_op) : usrp_system :=
  match o with AddUsrp d => fst (usrp_add s d) | SetDefault b => UsrpSystem (sys_devices s) (sys_names s) b end.
Definition usrp_run (l : list usrp_op) : usrp_system := fold_left usrp_step l empty_system.
