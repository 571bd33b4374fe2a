(** Gain control and quantization of analog-digital converters.
    Models hermespy/simulation/rf/blocks/ad.py with exact real arithmetic: ConverterBase (86-108),
    GainControlBase (162-198), Gain (241-248), AutomaticGainControl (326-351), ADC._quantize
    (450-500), __convert_frame (502-525) and _propagate (527-561), and rms_value of
    hermespy/tools/math.py (103-106).  A sample is a pair of in-phase and quadrature amplitude,
    a signal is the list of its streams.  Noise, ports and serialization are not modelled here. *)
From Coq Require Import Reals List Arith Bool ZArith.
From Verif Require Import Base.
Import ListNotations.
Open Scope R_scope.

Definition sample : Type := R * R.
Definition signal : Type := list (list sample).

(** num_quantization_bits setter (ad.py:86-96), integers only; [None] means no quantization *)
Definition set_bits (value : option Z) : result (option nat) :=
  match value with
  | None => Ok None
  | Some v => if (v <? 0)%Z then Raise ValueError
              else Ok (if (0 <? v)%Z then Some (Z.to_nat v) else None)
  end.
(** num_quantization_levels (ad.py:98-108), quantizing converters only *)
Definition num_levels (bits : nat) : R := 2 ^ bits.

(** np.floor and np.clip *)
Definition floor (x : R) : R := IZR (Int_part x).
Definition clip (x lo hi : R) : R := Rmin (Rmax x lo) hi.

Inductive quantizer := MidRiser | MidTread.

(** One component of _quantize (ad.py:468-498); max_amplitude is 1.0 *)
Definition step_of (q : quantizer) (bits : nat) : R :=
  match q with
  | MidRiser => 2 * 1 / num_levels bits
  | MidTread => 2 * 1 / (num_levels bits + 1)
  end.
Definition quantize1 (q : quantizer) (bits : nat) (x : R) : R :=
  let step := step_of q bits in
  match q with
  | MidRiser => clip (step * (floor (x / step) + 0.5)) (- 1 + step / 2) (1 - step / 2)
  | MidTread => step * floor (clip x (- 1) (1 - step) / step + 0.5)
  end.
(** ADC._quantize (ad.py:450-500) *)
Definition quantize (q : quantizer) (bits : option nat) (s : signal) : signal :=
  match bits with
  | None => s
  | Some b => map (map (fun z : sample => (quantize1 q b (fst z), quantize1 q b (snd z)))) s
  end.

(** Gain control: fixed gain (ad.py:241-248) or automatic (ad.py:264-351) *)
Inductive agc_type := AgcNone | MaxAmplitude | RmsAmplitude.
Inductive gain_control := FixedGain (g : R) | Automatic (t : agc_type) (backoff : R).
Definition make_gain (g : R) : result gain_control := if Rle_dec g 0 then Raise ValueError else Ok (FixedGain g).
Definition make_agc (t : agc_type) (backoff : R) : result gain_control :=
  if Rle_dec backoff 0 then Raise ValueError else Ok (Automatic t backoff).

Definition real (s : signal) : list (list R) := map (map fst) s.
Definition imag (s : signal) : list (list R) := map (map snd) s.
(** np.abs(x).max(); the maximum of nothing raises *)
Definition max_abs (x : list (list R)) : result R :=
  match map Rabs (concat x) with
  | [] => Raise ValueError
  | a :: l => Ok (fold_left Rmax l a)
  end.

Section Rms.
(** numpy.linalg.norm(x, 2) of a matrix: an arbitrary function here, see [spectral_norm] in
    Adc_Spec *)
Variable norm2 : list (list R) -> R.

(** rms_value (tools/math.py:103-106) *)
Definition rms_value (x : list (list R)) : R := norm2 x / sqrt (INR (length (concat x))).

(** AutomaticGainControl.estimate_gain (ad.py:333-351), Gain.estimate_gain (247-248) *)
Definition gain_from (amplitude backoff : R) : R :=
  if Rlt_dec 0 amplitude then 1 / (amplitude * backoff) else 1.
Definition estimate_gain (g : gain_control) (s : signal) : result R :=
  match g with
  | FixedGain x => Ok x
  | Automatic MaxAmplitude backoff =>
      do r <- max_abs (real s);
      do i <- max_abs (imag s);
      Ok (gain_from (Rmax (Rmax r i) 0) backoff)
  | Automatic RmsAmplitude backoff =>
      Ok (gain_from (Rmax (Rmax (rms_value (real s)) (rms_value (imag s))) 0) backoff)
  | Automatic AgcNone _ => Raise RuntimeError
  end.

Definition scale (k : R) (s : signal) : signal := map (map (fun z : sample => (fst z * k, snd z * k))) s.

(** GainControlBase.scale_quantized_signal (ad.py:178-198) *)
Definition rescale (flag : bool) (gain : R) (s : signal) : signal :=
  if flag then map (map (fun z : sample => (fst z / gain, snd z / gain))) s else s.

(** ADC.__convert_frame (ad.py:502-525) *)
Definition convert_frame (g : gain_control) (flag : bool) (q : quantizer) (bits : option nat) (s : signal)
  : result signal :=
  do gain <- estimate_gain g s;
  Ok (rescale flag gain (quantize q bits (scale gain s))).

(** ADC._propagate (ad.py:527-561), [n] samples per frame (the whole signal by default).
    Assigning a converted frame to columns f*n ... (f+1)*n of the result raises if the frame is
    shorter, unless it is a single column, which numpy repeats. *)
Definition num_samples (s : signal) : nat := match s with [] => 0 | r :: _ => length r end.
Definition put_frame (n : nat) (frame : signal) : result signal :=
  if (num_samples frame =? n)%nat then Ok frame
  else if (num_samples frame =? 1)%nat then Ok (map (fun r => repeat (hd (0, 0) r) n) frame)
  else Raise ValueError.
Definition columns (a b : nat) (s : signal) : signal := map (slice a b) s.
Definition append_columns (s t : signal) : signal := map (fun '(a, b) => a ++ b) (combine s t).
Definition propagate (g : gain_control) (flag : bool) (q : quantizer) (bits : option nat) (n : nat) (s : signal)
  : result signal :=
  let num_frames := if (0 <? n)%nat then ceil_div (num_samples s) n else 0%nat in
  fold_left (fun r f =>
      do acc <- r;
      do c <- convert_frame g flag q bits (columns (f * n) ((f + 1) * n) s);
      do c <- put_frame n c;
      Ok (append_columns acc c))
    (seq 0 num_frames) (Ok (map (fun _ => []) s)).
End Rms.
