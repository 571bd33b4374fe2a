(** Noise at receivers, communication noise levels and oscillator phase noise, with exact arithmetic.
    Models hermespy/simulation/rf/noise/model.py (NoiseRealization 33-49, AWGNRealization 143-160), hermespy/simulation/modem/noise.py (24-111),
    hermespy/modem/waveform.py (bit_energy 393-408) with the symbol energies of the waveforms, hermespy/simulation/simulated_device.py
    (realize_reception 1776-1784, _generate_receiver_input 1786-1830), the energy scales of channel samples (channel/ideal.py 46-48,
    channel/delay/delay.py 75-77, channel/fading/fading.py 289-291) and hermespy/simulation/rf/noise/phase_noise.py (89-200).
    Random draws are functions of what is drawn; their distribution is stated by the theorems. *)
From Coq Require Import List Reals Arith Bool.
From Coquelicot Require Import Complex.
From Verif Require Import Base Cplx Chan_Model.
Import ListNotations.
Open Scope R_scope.

(** ** Noise realizations (model.py) *)
(** Samples of a signal: the end of its last block (core/signal_model.py SparseSignal.num_samples 1690-1695) *)
Definition num_samples (s : signal) : nat := last_end (blocks s).
(** In place addition of an array of [rows] by [cols] to a block (model.py 157): numpy repeats single rows and columns of the array,
    and raises ValueError if the sum does not have the shape of the block *)
Definition add_array (rows cols : nat) (a : nat -> nat -> C) (b : blk) : result blk :=
  if ((Nat.eqb rows (streams b) || Nat.eqb rows 1) && (Nat.eqb cols (samples b) || Nat.eqb cols 1))%bool
  then Ok (Blk (streams b) (samples b) (offset b) (fun i n => (x b i n + a (if Nat.eqb rows 1 then 0%nat else i) (if Nat.eqb cols 1 then 0%nat else n))%C))
  else Raise ValueError.
Definition with_blocks (s : signal) (l : list blk) : signal :=
  match s with Dense d b => Dense d (hd b l) | Sparse d _ => Sparse d l end.
(** AWGNRealization (33-49, 143-160).  [draw rows cols]: both arrays drawn by a fresh generator from the stored seed (149-153), as complex numbers.
    The result comes with its noise power, of which [before] is the signal's *)
Definition add_to (power : R) (draw : nat -> nat -> nat -> nat -> C) (s : signal) (before : R) : result (signal * R) :=
  if Rlt_dec power 0 then Raise ValueError
  else if Req_EM_T power 0 then Ok (s, before)
  else
    let rows := num_streams s in
    let cols := num_samples s in
    do l <- mapM (add_array rows cols (fun i n => (RtoC (sqrt (power / 2)) * draw rows cols i n)%C)) (blocks s);
    Ok (with_blocks s l, power).

(** ** Inputs of the receivers of a device (simulated_device.py) *)
(** _generate_receiver_input (1786-1830) of a dense signal (1951): noise, decoding, selection of ports.  [decoder]: None without receive coding,
    otherwise the weights of a linear decoding into a number of streams; [ports]: the receiver's selection.  The last component is the noise power
    written to the input (1827) *)
Definition decode (w : option (nat * (nat -> nat -> C))) (b : blk) : blk :=
  match w with
  | None => b
  | Some (k, w) => Blk k (samples b) (offset b) (fun r n => csum (fun i => w r i * x b i n)%C (streams b))
  end.
Definition select_ports (ports : option (list nat)) (b : blk) : result blk :=
  match ports with
  | None => Ok b
  | Some l => if forallb (fun p => Nat.ltb p (streams b)) l then Ok (Blk (length l) (samples b) (offset b) (fun r n => x b (nth r l 0%nat) n)) else Raise IndexError
  end.
Definition receiver_input (power : R) (draw : nat -> nat -> nat -> nat -> C) (decoder : option (nat * (nat -> nat -> C))) (ports : option (list nat)) (b : blk)
    : result (blk * R) :=
  do '(s, _) <- add_to power draw (Dense 0 b) 0;
  do y <- select_ports ports (decode decoder (hd b (blocks s)));
  Ok (y, power).
(** process_from_realization (1954): the same realization for all receivers *)
Definition receiver_inputs (power : R) (draw : nat -> nat -> nat -> nat -> C) (decoder : option (nat * (nat -> nat -> C))) (receivers : list (option (list nat))) (b : blk)
    : result (list (blk * R)) := mapM (fun ports => receiver_input power draw decoder ports b) receivers.

(** ** Energy scales announced by channel samples *)
(** channel/ideal.py 46-48; channel/delay/delay.py 75-77, the factor applied to amplitudes (102-122); channel/fading/fading.py 289-291 *)
Definition ideal_scale (gain : R) : R := gain.
Definition delay_scale (c : delay_sample) : R := d_gain c.
Definition fading_scale (c : fading_sample) : R := f_gain c * fold_right Rplus 0 (map power (paths c)).
(** SNR.get_power (level.py 258-259) after a sample of the channel (234-241) *)
Definition snr_power (snr reference scale : R) : R := reference / snr * scale.

(** ** Noise levels of communication waveforms (simulation/modem/noise.py) *)
(** Symbol energies: modem/waveform_single_carrier.py 399-400 and 869-870, 939-940; waveform_chirp_fsk.py 253-256; waveforms/orthogonal/waveform.py 1087-1088.
    [chirp_samples]: samples_in_chirp of the bandwidth and the oversampling factor *)
Inductive waveform := SingleCarrier (bits : nat) | Fmcw (bits samples_per_chirp : nat) | ChirpFsk (bits : nat) (chirp_samples : R -> nat -> nat) | Orthogonal (bits : nat).
Definition bits_per_symbol (w : waveform) : nat := match w with SingleCarrier b | Fmcw b _ | ChirpFsk b _ | Orthogonal b => b end.
Definition symbol_energy (w : waveform) (bandwidth : R) (oversampling : nat) : R :=
  match w with
  | SingleCarrier _ | Orthogonal _ => INR oversampling
  | Fmcw _ n => INR n * INR oversampling
  | ChirpFsk _ f => INR (f bandwidth oversampling)
  end.
(** modem/waveform.py 393-408 *)
Definition bit_energy (w : waveform) (bandwidth : R) (oversampling : nat) : R := symbol_energy w bandwidth oversampling / INR (bits_per_symbol w).
Inductive reference := OfWaveform (w : waveform) | OfModem (w : option waveform).
Inductive ratio := EbN0 | EsN0.
Record comm_level := Comm { kind : ratio; ref : reference; lev : R }.
(** Setter of the level (53-58), called by the constructor (38) before the reference is stored *)
Definition set_comm (l : comm_level) (v : R) : result comm_level := if Rle_dec v 0 then Raise ValueError else Ok (Comm (kind l) (ref l) v).
(** _get_reference_waveform (73-90) *)
Definition reference_waveform (r : reference) : result waveform :=
  match r with OfWaveform w => Ok w | OfModem (Some w) => Ok w | OfModem None => Raise RuntimeError end.
(** get_power (97-98, 110-111); bandwidth is the device's *)
Definition comm_power (l : comm_level) (bandwidth : R) : result R :=
  do w <- reference_waveform (ref l);
  Ok (match kind l with EbN0 => bit_energy w bandwidth 1 | EsN0 => symbol_energy w bandwidth 1 end / lev l).
(** Rectangular waveforms (modem/waveform_single_carrier.py 878-883): symbols are held for [o] samples and averaged over them *)
Definition held (o : nat) (symbols : nat -> C) (n : nat) : C := symbols (n / o)%nat.
Definition averaged (o : nat) (y : nat -> C) (k : nat) : C := (csum (fun i => y (k * o + i)%nat) o / RtoC (INR o))%C.

(** ** Oscillator phase noise (simulation/rf/noise/phase_noise.py) *)
(** __w3_filter_coefficients (116-128) *)
Fixpoint coefficient (k : nat) : R :=
  match k with O => 1 | S j => (3 / 2 + INR (S j) - 1) * coefficient j / INR (S j) end.
(** scipy's lfilter([1, 0], [1, -1], w) (171): y[n] = w[n] + y[n-1] *)
Fixpoint integrated (w : nat -> R) (n : nat) : R := match n with O => w O | S m => w (S m) + integrated w m end.
(** lfilter(h, 1, w) (183) *)
Fixpoint rsum (f : nat -> R) (n : nat) : R := match n with O => 0 | S k => rsum f k + f k end.
Definition filtered (h w : nat -> R) (n : nat) : R := rsum (fun k => h k * w (n - k)%nat) (S n).
Record oscillator := Osc { k0 : R; k2 : R; k3 : R }.
(** Setters of the constants (280-284, 297-301, 314-318), called by the constructor (232-234) *)
Definition oscillator_of (a b c : R) : result oscillator :=
  if Rlt_dec a 0 then Raise ValueError else if Rlt_dec b 0 then Raise ValueError else if Rlt_dec c 0 then Raise ValueError else Ok (Osc a b c).
(** _get_noise_samples (130-188) at sampling rate [fs]; [u0], [u2] and [u3] are the standard normal draws of a stream *)
Definition var0 (o : oscillator) (fs : R) : R := k0 o / (1 / fs).
Definition var2 (o : oscillator) (fs : R) : R := 4 * k2 o * (1 / fs) * PI ^ 2.
Definition var3 (o : oscillator) (fs : R) : R := 8 * k3 o * (1 / fs) ^ 2 * PI ^ 3.
Definition phase (o : oscillator) (fs : R) (u0 u2 u3 : nat -> R) (n : nat) : R :=
  (if Rlt_dec 0 (var0 o fs) then sqrt (var0 o fs) * u0 n else 0)
  + (if Rlt_dec 0 (var2 o fs) then integrated (fun i => sqrt (var2 o fs) * u2 i) n else 0)
  + (if Rlt_dec 0 (var3 o fs) then filtered coefficient (fun i => sqrt (var3 o fs) * u3 i) n else 0).
(** add_noise (190-200); the draws of stream r are [u0 r], [u2 r], [u3 r].  Signals of no sample are returned *)
Definition add_phase_noise (o : oscillator) (fs : R) (u0 u2 u3 : nat -> nat -> R) (b : blk) : blk :=
  if Nat.eqb (streams b * samples b) 0 then b
  else Blk (streams b) (samples b) (offset b) (fun r n => (x b r n * cis (phase o fs (u0 r) (u2 r) (u3 r) n))%C).
