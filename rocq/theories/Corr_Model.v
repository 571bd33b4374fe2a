(** What the calibrations of physical devices do to signals: hermespy/hardware_loop/physical_device.py, calibration/delay.py and calibration/antennas.py.
    Simplifications: signals are dense signals; numbers are exact; sampling rates of devices are positive; ports are given by non-negative indices. *)
From Coq Require Import List Arith ZArith Lia Reals Lra Bool.
From Coquelicot Require Import Complex.
From Verif Require Import Base Cplx.
Import ListNotations.
Local Open Scope nat_scope.

Record dense := Dense { streams : nat; samples : nat; at_ : nat -> nat -> C; rate : R; carrier : R; delay : R }.

(** Python's round(): to the nearest integer, ties to the even one *)
Definition round_even (x : R) : Z :=
  let f := Int_part x in
  if Rlt_dec (x - IZR f) (1 / 2) then f
  else if Rlt_dec (1 / 2) (x - IZR f) then (f + 1)%Z
  else if Z.even f then f else (f + 1)%Z.
(** Python's int() *)
Definition truncate (x : R) : Z := if Rlt_dec x 0 then (- Int_part (- x))%Z else Int_part x.

(** ** Delays (physical_device.py:829-888); [tau] is the calibration's delay *)
(** correct_transmit_delay 829-862 *)
Definition correct_transmit_delay (tau : R) (s : dense) : dense :=
  if Rle_dec 0 tau then s
  else let k := Z.to_nat (round_even (- tau * rate s)) in
       Dense (streams s) (samples s + k) (fun i j => if j <? k then RtoC 0 else at_ s i (j - k)) (rate s) (carrier s) (delay s).
(** numpy: the end of the slice [:-k] and the start of the slice [-k:] of n entries *)
Definition stop_of (n k : nat) : nat := if k =? 0 then 0 else n - k.
Definition start_of (n k : nat) : nat := if k =? 0 then 0 else n - k.
Definition selected (ports : option (list nat)) (i : nat) : bool := match ports with None => true | Some l => existsb (Nat.eqb i) l end.
Definition ports_ok (ports : option (list nat)) (n : nat) : bool := match ports with None => true | Some l => forallb (fun i => i <? n) l end.
(** correct_receive_delay 864-888: columns [k:] are written over columns [:-k], numpy repeats a single column; then columns [-k:] are cleared *)
Definition correct_receive_delay (tau : R) (ports : option (list nat)) (s : dense) : result dense :=
  if Rle_dec tau 0 then Ok s
  else
    let k := Z.to_nat (round_even (tau * rate s)) in
    let n := samples s in
    let stop := stop_of n k in
    let width := n - k in
    if negb (ports_ok ports (streams s)) then Raise IndexError
    else if (stop =? width) || (width =? 1) then
      Ok (Dense (streams s) n
            (fun i j => if selected ports i
                        then if start_of n k <=? j then RtoC 0
                             else if j <? stop then at_ s i (k + if stop =? width then j else 0) else at_ s i j
                        else at_ s i j)
            (rate s) (carrier s) tau)
    else Raise ValueError.

(** ** Estimation of delays (delay.py:44-126) *)
(** numpy compares complex numbers by their real parts, then by their imaginary parts; argmax returns the first largest entry *)
Definition cless (a b : C) : bool := if Rlt_dec (fst a) (fst b) then true else if Rlt_dec (fst b) (fst a) then false else if Rlt_dec (snd a) (snd b) then true else false.
Fixpoint argmax_from (best : C) (at_best i : nat) (l : list C) : nat :=
  match l with [] => at_best | x :: t => if cless best x then argmax_from x i (S i) t else argmax_from best at_best (S i) t end.
Definition argmax (l : list C) : result nat := match l with [] => Raise ValueError | x :: t => Ok (argmax_from x 0 1 t) end.
(** 100-103: the calibration signal, one at sample [m] of the selected ports *)
Definition dirac (ports n m : nat) (sel : option (list nat)) : list (list C) :=
  map (fun i => map (fun j => if selected sel i && (j =? m) then RtoC 1 else RtoC 0) (seq 0 n)) (seq 0 ports).
(** 115: rows of the selected receive ports *)
Definition rows_of (sel : option (list nat)) (x : list (list C)) : result (list (list C)) :=
  match sel with
  | None => Ok x
  | Some l => mapM (fun i => match nth_error x i with Some r => Ok r | None => Raise IndexError end) l
  end.
(** [trigger n x]: the samples received when [x] is transmitted the n-th time (device.trigger_direct, 110) *)
Definition estimate_delay (trigger : nat -> list (list C) -> list (list C)) (tx_ports : nat) (fs max_delay : R) (iterations : nat) (wait : R)
    (tx_sel rx_sel : option (list nat)) : result R :=
  if iterations <? 1 then Raise ValueError
  else if Rlt_dec wait 0 then Raise ValueError
  else
    let n := truncate (2 * max_delay * fs) in
    if (n <=? 1)%Z then Raise ValueError
    else
      let m := Z.to_nat (truncate (max_delay * fs)) in
      if negb (ports_ok tx_sel tx_ports) then Raise IndexError
      else
        do indices <- mapM (fun it => do r <- rows_of rx_sel (trigger it (dirac tx_ports (Z.to_nat n) m tx_sel)); argmax (concat r)) (seq 0 iterations);
        Ok ((INR (fold_right Nat.add 0%nat indices) / INR iterations - INR m) / fs)%R.

(** ** Antenna weights (antennas.py) *)
(** correct_transmission 73-80 and correct_reception 83-90: the samples handed over are overwritten *)
Definition correct_ports (weights : list C) (s : dense) : result dense :=
  if negb (streams s =? length weights) then Raise ValueError
  else Ok (Dense (streams s) (samples s) (fun i j => nth i weights (RtoC 0) * at_ s i j)%C (rate s) (carrier s) (delay s)).
(** PhysicalDevice.trigger_direct (physical_device.py:489-546) of a device with sampling rate [fs] and carrier [fc]; [weights] is None for NoAntennaCalibration
    (1014-1023), [leak] the leakage calibration's remove_leakage.  Returns the received signal and the samples left in the caller's signal.
    The default _upload (431-443) hands back what was uploaded *)
Definition trigger_direct (fs fc : R) (weights : option (list C)) (leak : dense -> dense -> result dense) (hardware : dense -> dense) (calibrate : bool) (s : dense)
    : result (dense * dense) :=
  if Req_EM_T (carrier s) fc then
    if Req_EM_T (rate s) fs then
      do s' <- (if calibrate then match weights with None => Ok s | Some w => correct_ports w s end else Ok s);
      let received := hardware s' in
      do corrected <- (if calibrate then leak s' received else Ok received);
      Ok (corrected, s')
    else Raise ValueError
  else Raise ValueError.

(** Estimate (92-194): [expected n m] is the phase response of transmitting port n at receiving port m (114-133), [probes n m] the samples received at m while n sends ones *)
Definition mean (f : nat -> C) (n : nat) : C := (csum f n / RtoC (INR n))%C.
(** 183, 187: the probing pulse consists of ones *)
Definition response (probes : nat -> nat -> nat -> C) (num : nat) (n m : nat) : C := mean (fun t => probes n m t / RtoC 1)%C num.
Definition correction (expected measured : nat -> nat -> C) (n m : nat) : C := (expected n m / (measured n m / RtoC (Cmod (measured n m))))%C.
(** 184-186 and 188-190 *)
Definition transmit_weights (expected measured : nat -> nat -> C) (tx rx : nat) : list C := map (fun n => mean (fun m => correction expected measured n m) rx) (seq 0 tx).
Definition receive_weights (expected measured : nat -> nat -> C) (tx rx : nat) : list C := map (fun m => mean (fun n => correction expected measured n m) tx) (seq 0 rx).
