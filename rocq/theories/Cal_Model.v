(** Calibrations attached to physical devices: hermespy/hardware_loop/physical_device.py.
    Simplifications: devices and calibrations are numbered in the order of their creation, objects are never freed; of a device only its three calibrations
    are kept, of a calibration only its class and its device; only calibrations of the matching class are assigned to a property, as the type hints ask for. *)
From Coq Require Import List Arith Lia Bool.
From Verif Require Import Base.
Import ListNotations.

(** The three families of calibrations: LeakageCalibrationBase (physical_device.py:918-952), DelayCalibrationBase (812-888), AntennaCalibration (978-1011) *)
Inductive kind := Leakage | Delay | Antenna.
Definition kind_eqb (a b : kind) : bool := match a, b with Leakage, Leakage | Delay, Delay | Antenna, Antenna => true | _, _ => false end.

(** [device_of] is the [__device] of a calibration (692, 718, 744), [slot] the three attributes of a device (75-77) *)
Record world := World { num_devices : nat; num_calibrations : nat; kind_of : nat -> kind; device_of : nat -> option nat; slot : nat -> kind -> nat }.
Definition empty_world : world := World 0 0 (fun _ => Leakage) (fun _ => None) (fun _ _ => 0).

Definition same (a b : option nat) : bool := match a, b with Some x, Some y => x =? y | None, None => true | _, _ => false end.
(** 177, 197, 214 *)
Definition put_slot (w : world) (d : nat) (k : kind) (c : nat) : world :=
  World (num_devices w) (num_calibrations w) (kind_of w) (device_of w) (fun d' k' => if (d' =? d) && kind_eqb k' k then c else slot w d' k').
(** 744 *)
Definition put_device (w : world) (c : nat) (v : option nat) : world :=
  World (num_devices w) (num_calibrations w) (kind_of w) (fun c' => if c' =? c then v else device_of w c') (slot w).
(** A calibration constructed without device: 696-721, of the default classes 891, 955, 1014 or any other *)
Definition allocate (w : world) (k : kind) : world * nat :=
  (World (num_devices w) (S (num_calibrations w)) (fun c => if c =? num_calibrations w then k else kind_of w c)
     (fun c => if c =? num_calibrations w then None else device_of w c) (slot w), num_calibrations w).
(** _configure_slot: 817-821, 923-929, 983-987 *)
Definition configure (set_slot : world -> nat -> kind -> nat -> result world) (w : world) (d : nat) (k : kind) (value : option nat) : result world :=
  match value with
  | None => let '(w', c) := allocate w k in set_slot w' d k c
  | Some c => set_slot w d k c
  end.
(** The setters call each other; [fuel] bounds the depth of the calls.
    The properties leakage_calibration (172-180), delay_calibration (192-198) and antenna_calibration (209-215) of a device *)
Fixpoint set_slot (fuel : nat) (w : world) (d : nat) (k : kind) (c : nat) : result world :=
  match fuel with
  | 0 => Raise RecursionError
  | S fuel' =>
      if slot w d k =? c then Ok w
      else let w' := put_slot w d k c in
           match k with
           | Leakage => if same (device_of w' c) (Some d) then Ok w' else set_device fuel' w' c (Some d)
           | _ => set_device fuel' w' c (Some d)
           end
  end
(** The property device of a calibration (733-746) *)
with set_device (fuel : nat) (w : world) (c : nat) (v : option nat) : result world :=
  match fuel with
  | 0 => Raise RecursionError
  | S fuel' =>
      if same (device_of w c) v then Ok w
      else
        do w' <- match device_of w c with None => Ok w | Some d => configure (set_slot fuel') w d (kind_of w c) None end;
        let w'' := put_device w' c v in
        match v with None => Ok w'' | Some d => configure (set_slot fuel') w'' d (kind_of w'' c) (Some c) end
  end.

(** Calibration.__init__ 717-719 *)
Definition new_calibration (fuel : nat) (w : world) (k : kind) (d : option nat) : result world :=
  let '(w', c) := allocate w k in set_device fuel w' c d.
(** PhysicalDevice.__init__ 150-155 *)
Definition new_device (fuel : nat) (w : world) (leakage delay antenna : option nat) : result world :=
  let d := num_devices w in
  let '(w1, l) := allocate w Leakage in
  let '(w2, a) := allocate w1 Antenna in
  let '(w3, t) := allocate w2 Delay in
  let w4 := World (S d) (num_calibrations w3) (kind_of w3) (device_of w3)
              (fun d' k => if d' =? d then match k with Leakage => l | Delay => t | Antenna => a end else slot w3 d' k) in
  do w5 <- configure (set_slot fuel) w4 d Leakage leakage;
  do w6 <- configure (set_slot fuel) w5 d Delay delay;
  configure (set_slot fuel) w6 d Antenna antenna.

(** What users do; an operation naming objects that do not exist, or a calibration of another class, cannot be written ([None]) *)
Inductive op :=
  | NewDevice (leakage delay antenna : option nat)
  | NewCalibration (k : kind) (d : option nat)
  | Assign (d : nat) (k : kind) (c : nat)  (* device.xxx_calibration = c *)
  | Attach (c : nat) (d : option nat).     (* c.device = d *)
Definition calibration_ok (w : world) (k : kind) (c : nat) : bool := (c <? num_calibrations w) && kind_eqb (kind_of w c) k.
Definition option_ok {A} (f : A -> bool) (x : option A) : bool := match x with Some a => f a | None => true end.
Definition writable (w : world) (o : op) : bool :=
  match o with
  | NewDevice l d a => option_ok (calibration_ok w Leakage) l && option_ok (calibration_ok w Delay) d && option_ok (calibration_ok w Antenna) a
  | NewCalibration _ d => option_ok (fun d => d <? num_devices w) d
  | Assign d k c => (d <? num_devices w) && calibration_ok w k c
  | Attach c d => (c <? num_calibrations w) && option_ok (fun d => d <? num_devices w) d
  end.
Definition step (fuel : nat) (w : world) (o : op) : result world :=
  match o with
  | NewDevice l d a => new_device fuel w l d a
  | NewCalibration k d => new_calibration fuel w k d
  | Assign d k c => set_slot fuel w d k c
  | Attach c d => set_device fuel w c d
  end.
