(** Static operators, the slots of devices operators are registered at, the longest frame of a device and the trigger models:
    hermespy/core/operators.py ("op"), hermespy/core/device.py ("dev"), hermespy/simulation/simulated_device.py ("sim").
    Simplifications: operators are numbers, each compared to others by identity; durations, bandwidths and rates are real numbers, bandwidths and rates are positive;
    the devices of a trigger model, a Python set, are given in the order the set is iterated in. *)
From Coq Require Import List Reals Bool Arith ZArith Lra.
From Coquelicot Require Import Complex.
From Verif Require Import Base.
Import ListNotations.
Local Open Scope nat_scope.

(** * Slots *)
(** dev 804-819 and 821-830 *)
Definition add (s : list nat) (o : nat) : list nat := if existsb (Nat.eqb o) s then s else s ++ [o].
Fixpoint remove_first (o : nat) (s : list nat) : list nat :=
  match s with [] => [] | a :: s => if a =? o then s else a :: remove_first o s end.
Definition remove (s : list nat) (o : nat) : list nat := if existsb (Nat.eqb o) s then remove_first o s else s.
Inductive slot_op := Add (o : nat) | Remove (o : nat).
Definition slot_step (s : list nat) (op : slot_op) : list nat := match op with Add o => add s o | Remove o => remove s o end.
Definition slot (history : list slot_op) : list nat := fold_left slot_step history [].
(** dev 1149-1161: operators passed to the constructor of a device *)
Definition constructed (operators : list nat) : list nat := fold_left add operators [].
(** dev 1076-1080: slots that are not supported *)
Definition unsupported_add (s : list nat) (o : nat) : result (list nat) := Raise RuntimeError.
Definition unsupported_step (s : list nat) (op : slot_op) : list nat :=
  match op with Add o => match unsupported_add s o with Ok s' => s' | Raise _ => s end | Remove o => remove s o end.
Definition unsupported (history : list slot_op) : list nat := fold_left unsupported_step history [].

(** * Operators *)
Record signal := mkSignal { content : list (list C); rate : R; carrier : R }.
(** op 29-37, 55-68 (nothing is checked), 112-125, 172-186; other operators by their frame durations and samples per frame *)
Inductive operator :=
  | Silent (num_samples : Z)
  | Sending (num_samples : nat) (s : signal)
  | Receiving (num_samples : nat) (power : R)
  | Other (duration : R -> R) (samples : R -> nat -> nat).
Definition num_columns (s : signal) : nat := match content s with [] => 0 | r :: _ => length r end.
Definition new_sending (s : signal) : operator := Sending (num_columns s) s.
(** 137-139: the number of samples stays *)
Definition set_signal (o : operator) (s : signal) : operator := match o with Sending n _ => Sending n s | _ => o end.
(** 178-186, 197-201 *)
Definition new_receiving (n : Z) (power : R) : result operator :=
  if Rlt_dec power 0 then Raise ValueError else if Z.ltb n 0 then Raise ValueError else Ok (Receiving (Z.to_nat n) power).
Definition set_samples (o : operator) (n : Z) : result operator :=
  match o with Receiving _ p => if Z.ltb n 0 then Raise ValueError else Ok (Receiving (Z.to_nat n) p) | _ => Raise AttributeError end.
(** int() of a float *)
Definition truncate (x : R) : Z := if Rle_dec 0 x then Int_part x else (- Int_part (- x))%Z.
(** 75-85 for a device state with [ports] transmitting ports; numpy refuses negative dimensions *)
Definition transmit_silence (n : Z) (ports : nat) (r f duration : R) : result signal :=
  let k := if Rle_dec duration 0 then n else truncate (duration * r) in
  if Z.ltb k 0 then Raise ValueError else Ok (mkSignal (repeat (repeat (RtoC 0) (Z.to_nat k)) ports) r f).
(** 145-152 *)
Definition transmit_signal (s : signal) (r : R) : signal := mkSignal (content s) r (carrier s).
(** 216-217 *)
Definition receive (s : signal) : signal := s.
(** 141-142, 203-204; silent transmitters have no frame duration *)
Definition frame_duration (o : operator) (bandwidth : R) : result R :=
  match o with
  | Silent _ => Raise AttributeError
  | Sending n _ => Ok (INR n / bandwidth)%R
  | Receiving n _ => Ok (INR n / bandwidth)%R
  | Other d _ => Ok (d bandwidth)
  end.
(** dev 1306-1315 *)
Fixpoint longest (bandwidth m : R) (ops : list operator) : result R :=
  match ops with
  | [] => Ok m
  | o :: ops => do d <- frame_duration o bandwidth; longest bandwidth (Rmax m d) ops
  end.
Definition max_frame_duration (bandwidth : R) (transmitters receivers : list operator) : result R := longest bandwidth 0 (transmitters ++ receivers).
(** op 212-213; dev 1055-1073: the samples receivers need *)
Definition samples_per_frame (o : operator) (bandwidth : R) (os : nat) : nat :=
  match o with Receiving n _ => n | Other _ f => f bandwidth os | _ => 0 end.
Definition min_num_samples (bandwidth : R) (os : nat) (receivers : list operator) : nat :=
  fold_left (fun m o => Nat.max m (samples_per_frame o bandwidth os)) receivers 0.

(** * Trigger models *)
Record device := mkDevice { sampling_rate : R; bandwidth : R; transmitters : list operator; receivers : list operator }.
(** sim 224-235, 283-290, 342-351: realized offsets in samples, with the sampling rate they refer to *)
Definition realize_static (devices : list device) : result (Z * R) :=
  match devices with [] => Ok (0%Z, 1%R) | d :: _ => Ok (0%Z, sampling_rate d) end.
Definition realize_samples (n : nat) (devices : list device) : result (Z * R) :=
  match devices with [] => Raise RuntimeError | d :: _ => Ok (Z.of_nat n, sampling_rate d) end.
Definition realize_time (offset : R) (devices : list device) : result (Z * R) :=
  match devices with [] => Raise RuntimeError | d :: _ => Ok (truncate (offset * sampling_rate d), sampling_rate d) end.
(** 369-398: [draw] is a random number below its argument *)
Fixpoint longest_of (r m : R) (devices : list device) : result R :=
  match devices with
  | [] => Ok m
  | d :: ds => if Req_EM_T (sampling_rate d) r then do v <- max_frame_duration (bandwidth d) (transmitters d) (receivers d); longest_of r (Rmax m v) ds
               else Raise RuntimeError
  end.
Definition realize_random (draw : Z -> Z) (devices : list device) : result (Z * R) :=
  match devices with
  | [] => Raise RuntimeError
  | d :: ds =>
      do m <- max_frame_duration (bandwidth d) (transmitters d) (receivers d);
      do m <- longest_of (sampling_rate d) m ds;
      let limit := truncate (m * sampling_rate d) in
      if Z.eqb limit 0 then Ok (0%Z, sampling_rate d) else Ok (draw limit, sampling_rate d)
  end.
