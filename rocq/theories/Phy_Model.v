(** Physical devices: hermespy/hardware_loop/physical_device.py (PhysicalDevice 56-683), hermespy/hardware_loop/physical_device_dummy.py (PhysicalDeviceDummy 67-287),
    hermespy/hardware_loop/uhd/usrp.py (_upload 332-422, _download 430-453), hermespy/hardware_loop/calibration/antennas.py (73-90) and
    the parts of hermespy/core/device.py they call (generate_output 1393-1457, process_input 1481-1554, receive_operators 1556-1603, receive 1605-1640).
    Simplifications: signals are dense and have no delay and no noise power; sampling rates, carriers and bandwidths are integers, compared exactly;
    the operators transmit on all ports and superimpose in memory of their own; the numbers of digital ports fit the configured coding;
    resampling, mixing to another carrier, coding, filtering, leakage removal and the radio hardware are parameters. *)
From Coq Require Import List Arith ZArith Bool.
From Verif Require Import Base.
Import ListNotations.
Local Open Scope nat_scope.

(** Signals of core/signal_model.py (DenseSignal 1187-1226): one list of samples per stream *)
Record signal (A : Type) := Sig { s_rate : Z; s_carrier : Z; s_streams : list (list A) }.
Arguments Sig {A}. Arguments s_rate {A}. Arguments s_carrier {A}. Arguments s_streams {A}.

(** core/signal_model.py 922-929 [shape] *)
Definition num_streams {A} (s : signal A) : nat := length (s_streams s).
Definition num_samples {A} (s : signal A) : nat := match s_streams s with [] => 0 | r :: _ => length r end.

(** What may be passed as impinging signals (549-553): nothing, a signal, or a DeviceInput or sequence of signals *)
Inductive input (A : Type) := Nothing | One (s : signal A) | Several (l : list (signal A)).
Arguments Nothing {A}. Arguments One {A}. Arguments Several {A}.

(** ProcessedDeviceInput (core/device.py 1549): the impinging signals and the signal for each receiver *)
Record processed (A : Type) := Processed { impinging : list (signal A); operator_inputs : list (signal A) }.
Arguments Processed {A}. Arguments impinging {A}. Arguments operator_inputs {A}.

(** Hardware below the class: _upload (431-443) answers its memory, the uploaded signal object after the call and the signal it returns; trigger 157-160; _download 477-487 *)
Record hardware (A H : Type) := Hardware {
  hw_upload : H -> signal A -> H * signal A * signal A;
  hw_trigger : H -> H;
  hw_download : H -> result (signal A) }.
Arguments Hardware {A H}. Arguments hw_upload {A H}. Arguments hw_trigger {A H}. Arguments hw_download {A H}.

(** Processing routines the device is configured with; cutoffs are in quarters of a hertz *)
Record routines (A P : Type) := Routines {
  resampled : signal A -> Z -> list (list A);
  mixed : Z -> Z -> signal A -> list (list A);
  encode : signal A -> signal A;
  decode : signal A -> signal A;
  lowpassed : Z -> Z -> list (list A) -> list (list A);
  remove_leakage : signal A -> signal A -> signal A;
  correct_transmission : list (list A) -> result (list (list A));
  power : signal A -> P }.
Arguments Routines {A P}. Arguments resampled {A P}. Arguments mixed {A P}. Arguments encode {A P}. Arguments decode {A P}. Arguments lowpassed {A P}.
Arguments remove_leakage {A P}. Arguments correct_transmission {A P}. Arguments power {A P}.

(** Settings of a device; [d_receivers] are the selected_receive_ports of its receivers *)
Record settings := Settings {
  d_rate : Z; d_carrier : Z; d_tx : nat; d_rx : nat; d_receivers : list (option (list nat));
  adaptive_sampling : bool; lowpass_filter : bool; lowpass_bandwidth : Z }.

(** Memory of a device: hardware, __recent_upload (147) and __noise_power (148) *)
Record device (H A P : Type) := Device { d_settings : settings; d_hw : H; recent_upload : option (signal A); noise_power : option P }.
Arguments Device {H A P}. Arguments d_settings {H A P}. Arguments d_hw {H A P}. Arguments recent_upload {H A P}. Arguments noise_power {H A P}.

Section Physical.
Variables (A P H : Type) (zero : A) (add : A -> A -> A).
Variable hw : hardware A H.
Variable rt : routines A P.

(** np.zeros *)
Definition zeros (n m : nat) : list (list A) := repeat (repeat zero m) n.

(** Sum of two streams, the shorter one followed by zeros *)
Fixpoint add_stream (x y : list A) : list A :=
  match x, y with
  | [], _ => y
  | _, [] => x
  | a :: x', b :: y' => add a b :: add_stream x' y'
  end.

(** core/signal_model.py 1446-1534 [DenseSignal.superimpose]. Simplified: signals with different numbers of streams are refused *)
Definition superimpose (resample : bool) (self added : signal A) : result (signal A) :=
  if num_streams self * num_samples self <? 1 then Ok added
  else
    let same := (s_rate added =? s_rate self)%Z in
    if negb same && negb resample then Raise RuntimeError
    else
      let added' := if same then added else Sig (s_rate self) (s_carrier added) (resampled rt added (s_rate self)) in
      if num_streams added' =? num_streams self
      then Ok (Sig (s_rate self) (s_carrier self)
                 (map (fun p => add_stream (fst p) (snd p)) (combine (s_streams self) (mixed rt (s_rate self) (s_carrier self) added'))))
      else Raise ValueError.
Fixpoint superimpose_all (resample : bool) (self : signal A) (l : list (signal A)) : result (signal A) :=
  match l with
  | [] => Ok self
  | t :: l' => do v <- superimpose resample self t; superimpose_all resample v l'
  end.

(** core/device.py 1393-1457 [generate_output] *)
Definition generate_output (c : settings) (resample : bool) (ts : list (signal A)) : result (signal A) :=
  do s <- superimpose_all resample (Sig (d_rate c) (d_carrier c) (repeat [] (d_tx c))) ts;
  Ok (encode rt s).

(** 446-475 [transmit]; [ts] are the signals of the operators. Answers the mixed signal *)
Definition mixed_signal (c : settings) (ts : list (signal A)) : result (signal A) :=
  if negb (adaptive_sampling c) || (length ts <? 1) then generate_output c true ts
  else match generate_output c false ts with
       | Raise RuntimeError => Raise RuntimeError
       | Raise e => Raise e
       | Ok m => Ok (Sig (d_rate c) (d_carrier c) (s_streams m))
       end.
Definition transmit (d : device H A P) (ts : list (signal A)) : device H A P * result (signal A) :=
  match mixed_signal (d_settings d) ts with
  | Raise e => (d, Raise e)
  | Ok m =>
    let '(h, m', u) := hw_upload hw (d_hw d) m in
    (Device (d_settings d) h (Some u) (noise_power d), Ok m')
  end.

(** trigger 157-160 *)
Definition trigger (d : device H A P) : device H A P := Device (d_settings d) (hw_trigger hw (d_hw d)) (recent_upload d) (noise_power d).

(** 489-546 [trigger_direct]. The correction writes to the samples of the argument (calibration/antennas.py 79, core/signal_model.py 1302-1305),
    of which a copy is uploaded (521-528, core/signal_model.py 1290), otherwise the argument itself:
    answers the memory, the argument after the call and the result *)
Definition trigger_direct (d : device H A P) (s : signal A) (calibrate : bool) : device H A P * signal A * result (signal A) :=
  let c := d_settings d in
  if negb (s_carrier s =? d_carrier c)%Z then (d, s, Raise ValueError)
  else if negb (s_rate s =? d_rate c)%Z then (d, s, Raise ValueError)
  else
    match (if calibrate then correct_transmission rt (s_streams s) else Ok (s_streams s)) with
    | Raise e => (d, s, Raise e)
    | Ok x =>
      let s' := Sig (s_rate s) (s_carrier s) x in
      let '(h, s'', u) := hw_upload hw (d_hw d) s' in
      let h' := hw_trigger hw h in
      (Device c h' (recent_upload d) (noise_power d), if calibrate then s' else s'',
       do r <- hw_download hw h'; Ok (if calibrate then remove_leakage rt u r else r))
    end.

(** core/device.py 1541-1546 *)
Definition selected (ports : option (list nat)) (s : signal A) : result (signal A) :=
  match ports with
  | None => Ok s
  | Some l => do x <- mapM (fun i => match nth_error (s_streams s) i with Some r => Ok r | None => Raise IndexError end) l;
              Ok (Sig (s_rate s) (s_carrier s) x)
  end.

(** core/device.py 1481-1554 [Device.process_input], with as many ports as antennas: the superposition of several signals is computed and dropped (1522-1523) *)
Definition device_process_input (c : settings) (l : list (signal A)) : result (processed A) :=
  do s <- match l with
          | [s] => Ok s
          | _ => let e := Sig (d_rate c) (d_carrier c) (repeat [] (d_rx c)) in
                 do _ <- mapM (fun t => superimpose true e t) l; Ok e
          end;
  if negb (num_streams s =? d_rx c) then Raise RuntimeError
  else
    do xs <- mapM (fun p => selected p (decode rt s)) (d_receivers c);
    Ok (Processed l xs).

(** 560-574 *)
Definition lowpass (c : settings) (s : signal A) : signal A :=
  if lowpass_filter c
  then Sig (s_rate s) (s_carrier s)
         (lowpassed rt (if (lowpass_bandwidth c <=? 0)%Z then d_rate c else 2 * lowpass_bandwidth c)%Z (d_rate c) (s_streams s))
  else s.

(** 549-612 [process_input] *)
Definition process_input (d : device H A P) (i : input A) : result (processed A) :=
  let c := d_settings d in
  do s <- match i with
          | Nothing => do s <- hw_download hw (d_hw d); Ok (lowpass c s)
          | One s => Ok s
          | Several [] => Raise IndexError
          | Several (s :: _) => Ok s
          end;
  if negb (num_streams s =? d_rx c) then Raise ValueError
  else if negb (s_rate s =? d_rate c)%Z then Raise ValueError
  else
    let t := match recent_upload d with Some u => u | None => Sig (s_rate s) (s_carrier s) (repeat [] (num_streams s)) end in
    device_process_input c [remove_leakage rt t s].

(** 615-642 [receive], core/device.py 1605-1640; answers the inputs of the receiving operators *)
Definition receive (d : device H A P) (i : input A) : result (processed A) :=
  do j <- match i with Nothing => do s <- hw_download hw (d_hw d); Ok (One s) | _ => Ok i end;
  process_input d j.

(** 398-429 [estimate_noise_power] *)
Definition estimate_noise_power (d : device H A P) (n : nat) (cache : bool) : device H A P * result P :=
  let c := d_settings d in
  let '(d', _, r) := trigger_direct d (Sig (d_rate c) (d_carrier c) (zeros (d_tx c) n)) true in
  match r with
  | Raise e => (d', Raise e)
  | Ok s => (if cache then Device (d_settings d') (d_hw d') (recent_upload d') (Some (power rt s)) else d', Ok (power rt s))
  end.

(** 285-331: setters of the sampling and filter settings *)
Definition set_adaptive (b : bool) (c : settings) : settings :=
  Settings (d_rate c) (d_carrier c) (d_tx c) (d_rx c) (d_receivers c) b (lowpass_filter c) (lowpass_bandwidth c).
Definition set_lowpass (b : bool) (c : settings) : settings :=
  Settings (d_rate c) (d_carrier c) (d_tx c) (d_rx c) (d_receivers c) (adaptive_sampling c) b (lowpass_bandwidth c).
Definition set_bandwidth (w : Z) (c : settings) : result settings :=
  if (w <? 0)%Z then Raise ValueError
  else Ok (Settings (d_rate c) (d_carrier c) (d_tx c) (d_rx c) (d_receivers c) (adaptive_sampling c) (lowpass_filter c) w).
Definition with_settings (d : device H A P) (c : settings) : device H A P := Device c (d_hw d) (recent_upload d) (noise_power d).

(** 130-155 [__init__]: the arguments are those of [settings]; adaptive_sampling and lowpass_filter are not used (144-145) *)
Definition make_device (c : settings) (h : H) (np : option P) : result (device H A P) :=
  do c' <- set_bandwidth (lowpass_bandwidth c) (set_lowpass false (set_adaptive false c));
  Ok (Device c' h None np).

(** 645-683 [serialize] and [_DeserializeParameters], core/device.py 1666-1670 [Deserialize]: the constructor is called with the stored values.
    Simplified: the operators, antennas and calibrations are stored and restored as they are *)
Definition restore (d : device H A P) (h : H) : result (device H A P) := make_device (d_settings d) h (noise_power d).

(** Calls of a device *)
Inductive call :=
| CTransmit (ts : list (signal A)) | CTrigger | CDirect (s : signal A) (calibrate : bool) | CProcess (i : input A) | CReceive (i : input A)
| CNoise (n : nat) (cache : bool) | CAdaptive (b : bool) | CLowpass (b : bool) | CBandwidth (w : Z).
(** What a call returns *)
Inductive answer :=
| ATransmission (s : result (signal A)) | ASignal (s : result (signal A)) | AProcessed (p : result (processed A)) | APower (p : result P) | ADone (u : result unit).

Definition step (d : device H A P) (k : call) : device H A P * answer :=
  match k with
  | CTransmit ts => let '(d', r) := transmit d ts in (d', ATransmission r)
  | CTrigger => (trigger d, ADone (Ok tt))
  | CDirect s b => let '(d', _, r) := trigger_direct d s b in (d', ASignal r)
  | CProcess i => (d, AProcessed (process_input d i))
  | CReceive i => (d, AProcessed (receive d i))
  | CNoise n b => let '(d', r) := estimate_noise_power d n b in (d', APower r)
  | CAdaptive b => (with_settings d (set_adaptive b (d_settings d)), ADone (Ok tt))
  | CLowpass b => (with_settings d (set_lowpass b (d_settings d)), ADone (Ok tt))
  | CBandwidth w => match set_bandwidth w (d_settings d) with
                    | Ok c => (with_settings d c, ADone (Ok tt))
                    | Raise e => (d, ADone (Raise e))
                    end
  end.
(** A history of calls, with what each returned *)
Fixpoint run (d : device H A P) (ks : list call) : device H A P * list (call * answer) :=
  match ks with
  | [] => (d, [])
  | k :: ks' => let '(d', a) := step d k in let '(d'', l) := run d' ks' in (d'', (k, a) :: l)
  end.
End Physical.

(** * Hardware with a transmit and a receive memory, the latter taking over the former when triggered (431-443; physical_device_dummy.py 183-187, 241-243) *)
Definition loop_hardware (A : Type) : hardware A (signal A * signal A) :=
  Hardware (fun h s => ((s, snd h), s, s)) (fun h => (fst h, fst h)) (fun h => Ok (snd h)).

(** calibration/antennas.py 73-80 and 82-90: one weight per stream, multiplied in place *)
Definition weigh {A} (mul : A -> A -> A) (weights : list A) (x : list (list A)) : result (list (list A)) :=
  if length x =? length weights then Ok (map (fun p => map (mul (fst p)) (snd p)) (combine weights x)) else Raise ValueError.

(** * USRP (uhd/usrp.py) *)
Section Usrp.
Variables (A : Type) (zero : A) (mul : A -> A -> A).
(** num_prepeneded_zeros, num_appended_zeros, the samples of the longest expected frame (388-391), int(max_receive_delay * sampling_rate) (396-398) and receiving ports *)
Record usrp := Usrp { u_rate : Z; u_carrier : Z; u_pre : nat; u_app : nat; u_frame : nat; u_delay : nat; u_rx : nat; u_weights_tx : list A; u_weights_rx : list A }.
Variable u : usrp.

(** 369-376: zeros up to a multiple of four *)
Definition padding4 (n : nat) : nat := if n mod 4 =? 0 then 0 else 4 - n mod 4.
(** 359-376: the samples configured for transmission *)
Definition padded (x : list A) : list A :=
  let y := repeat zero (u_pre u) ++ x ++ repeat zero (u_app u) in y ++ repeat zero (padding4 (length y)).
(** 388-415: the number of samples configured for reception, [n] samples being uploaded *)
Definition reception_samples (n : nat) : nat :=
  let m := Nat.max (u_frame u) n in
  if 0 <? m then let k := m + u_delay u + u_pre u + u_app u in k + (4 - k mod 4)
  else let k := length (padded []) in k + (4 - k mod 4).

(** Memory of the radio: the configured streams and number of samples to receive, and the signals to be collected *)
Record radio := Radio { r_tx : list (list A); r_num : nat; r_enabled : bool; r_collected : list (list (list A)) }.
(** 332-422 [_upload] without scaling (351), which writes the weighted samples to the uploaded signal (341-348).
    Weights that do not fit the signal raise an error; simplified: nothing is uploaded then *)
Definition usrp_upload (h : radio) (s : signal A) : radio * signal A * signal A :=
  match weigh mul (u_weights_tx u) (s_streams s) with
  | Raise _ => (h, s, s)
  | Ok x => (Radio (map padded x) (reception_samples (num_samples s)) true (r_collected h),
             Sig (s_rate s) (s_carrier s) x, Sig (u_rate u) (u_carrier u) x)
  end.
(** 425-427; [air] is what the radio receives during the given number of samples *)
Definition usrp_trigger (air : list (list A) -> nat -> list (list (list A))) (h : radio) : radio :=
  Radio (r_tx h) (r_num h) (r_enabled h) (air (r_tx h) (r_num h)).
(** 430-453 [_download]: every collected signal is appended to the same empty array (436-440) and without any the slicing fails (443).
    Simplified: the collected signals have at least the appended zeros *)
Definition usrp_collect (l : list (list (list A))) : result (list (list A)) :=
  match rev l with
  | [] => Raise TypeError
  | s :: _ => if length s <? u_rx u then Raise IndexError else Ok (firstn (u_rx u) s)
  end.
Definition usrp_download (h : radio) : result (signal A) :=
  if negb (r_enabled h) then Ok (Sig (u_rate u) 0 (repeat [] (u_rx u)))
  else
    do x <- usrp_collect (r_collected h);
    do y <- weigh mul (u_weights_rx u) (map (fun r => slice (u_pre u) (length r - u_app u) r) x);
    Ok (Sig (u_rate u) (u_carrier u) y).
Definition usrp_hardware (air : list (list A) -> nat -> list (list (list A))) : hardware A radio :=
  Hardware usrp_upload (usrp_trigger air) usrp_download.
End Usrp.

(** * Dummy (physical_device_dummy.py 67-287) *)
Section Dummy.
Variables (A : Type) (zero : A).
(** SimulatedDevice.transmit, SimulatedDevice.process_input for the impinging and the leaking signal with its baseband signal and operator inputs, and isolation.leak *)
Record simulation := Simulation {
  sim_transmit : list (signal A) -> result (signal A);
  sim_process : list (signal A) -> option (signal A) -> result (signal A * list (signal A));
  sim_leak : signal A -> signal A;
  sim_remove : signal A -> signal A -> signal A }.
Variable sim : simulation.
(** sampling_rate, carrier_frequency, num_antennas and the number of receiving antennas *)
Record dummy_settings := DummySettings { y_rate : Z; y_carrier : Z; y_antennas : nat; y_rx : nat }.
Variable c : dummy_settings.
(** __receive_transmission, __uploaded_signal, __downloaded_signal (73-75) *)
Record dummy := Dummy { y_receive : bool; y_uploaded : signal A; y_downloaded : signal A }.

(** 152-155 *)
Definition make_dummy (b : bool) : dummy := Dummy b (Sig 1 0 (repeat [] (y_antennas c))) (Sig 1 0 (repeat [] (y_antennas c))).
(** 189-201 *)
Definition dummy_transmit (d : dummy) (ts : list (signal A)) : dummy * result (signal A) :=
  match sim_transmit sim ts with
  | Raise e => (d, Raise e)
  | Ok m => (Dummy (y_receive d) m (y_downloaded d), Ok m)
  end.
(** 241-249 *)
Definition dummy_trigger (d : dummy) : dummy :=
  if y_receive d then Dummy (y_receive d) (y_uploaded d) (y_uploaded d)
  else Dummy (y_receive d) (y_uploaded d) (Sig (y_rate c) (y_carrier c) (zeros A zero (num_streams (y_uploaded d)) (num_samples (y_uploaded d)))).
(** 203-225 *)
Definition dummy_process (d : dummy) (i : input A) (leaking : option (signal A)) : result (signal A * list (signal A)) :=
  sim_process sim (match i with Nothing => [y_uploaded d] | One s => [s] | Several l => l end) leaking.
(** 227-239; SimulatedDevice.receive hands the signals to process_input *)
Definition dummy_receive (d : dummy) (i : input A) : result (signal A * list (signal A)) :=
  dummy_process d (match i with Nothing => One (y_downloaded d) | _ => i end) None.
(** 251-276 *)
Definition dummy_direct (d : dummy) (s : signal A) (calibrate : bool) : result (signal A) :=
  let x := if y_receive d then s else Sig (y_rate c) (y_carrier c) (zeros A zero (y_rx c) (num_samples s)) in
  do p <- dummy_process d (One x) (Some (sim_leak sim s));
  Ok (if calibrate then sim_remove sim s (fst p) else fst p).

Inductive dcall := YTransmit (ts : list (signal A)) | YTrigger | YDirect (s : signal A) (calibrate : bool) | YProcess (i : input A) | YReceive (i : input A) | YSet (b : bool).
Inductive danswer := YSignal (s : result (signal A)) | YProcessed (p : result (signal A * list (signal A))) | YDone.
Definition dstep (d : dummy) (k : dcall) : dummy * danswer :=
  match k with
  | YTransmit ts => let '(d', r) := dummy_transmit d ts in (d', YSignal r)
  | YTrigger => (dummy_trigger d, YDone)
  | YDirect s b => (d, YSignal (dummy_direct d s b))
  | YProcess i => (d, YProcessed (dummy_process d i None))
  | YReceive i => (d, YProcessed (dummy_receive d i))
  | YSet b => (Dummy b (y_uploaded d) (y_downloaded d), YDone)
  end.
Fixpoint drun (d : dummy) (ks : list dcall) : dummy * list (dcall * danswer) :=
  match ks with
  | [] => (d, [])
  | k :: ks' => let '(d', a) := dstep d k in let '(d'', l) := drun d' ks' in (d'', (k, a) :: l)
  end.
End Dummy.
