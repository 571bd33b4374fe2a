(** Models hermespy/simulation/rf/signal.py (RFSignal), hermespy/simulation/rf/block.py (RFBlock.propagate) and the blocks of
    hermespy/simulation/rf/blocks/: mixers.py, x4.py, sum.py, split.py, shift.py, source.py, ramp.py, with the noise models of
    hermespy/simulation/rf/noise/: model.py, level.py, phase_noise.py.

    Simplifications for the whole file
    - frequencies, powers and times are real numbers, samples are complex numbers;
    - blocks are propagated without oversampling (or with [filter=False]), so that no anti-aliasing filter is applied (block.py 207-234, 240-250);
    - the delay and the sampling rate of signals are not part of the model; no resampling;
    - random numbers are a function of the seed of a realization, the stream and the sample. *)
From Coq Require Import List Reals Bool Arith ZArith Lra.
From Coquelicot Require Import Complex.
From Verif Require Import Base Cplx.
Import ListNotations.
Open Scope R_scope.

(** ** Radio frequency signals: signal.py 22-117.  [cf] and [np] are the attributes carrier_frequency and noise_power of the base class. *)
Record rf := Rf { streams : list (list C); samples : nat; freqs : list R; powers : list R; cf : R; np : R }.
(** RFSignal.__new__ (56-83): the attributes of the base class are those of the first stream, and both setters reject negative values
    (signal_model.py 959-973, 985-990); the size checks are those of 94-117 *)
Definition create (rows : list (list C)) (n : nat) (fs ps : list R) : result rf :=
  if Rlt_dec (hd 0 fs) 0 then Raise ValueError
  else if Rlt_dec (hd 0 ps) 0 then Raise ValueError
  else if negb (length fs =? length rows)%nat then Raise ValueError
  else if negb (length ps =? length rows)%nat then Raise ValueError
  else Ok (Rf rows n fs ps (hd 0 fs) (hd 0 ps)).
(** copy (272-282) *)
Definition copy (s : rf) : result rf := create (streams s) (samples s) (freqs s) (powers s).
(** __array_finalize__ (119-137) after an operation of numpy: attributes of the first streams of the operand, size checks by the setters *)
Definition derive (s : rf) (rows : list (list C)) : result rf :=
  let n := length rows in
  if negb (length (firstn n (freqs s)) =? n)%nat then Raise ValueError
  else if negb (length (firstn n (powers s)) =? n)%nat then Raise ValueError
  else Ok (Rf rows (samples s) (firstn n (freqs s)) (firstn n (powers s)) (cf s) (np s)).
(** __getitem__ (139-156) of a single stream and all of its samples *)
Definition stream (s : rf) (i : nat) : result rf :=
  match nth_error (streams s) i with
  | Some row => do d <- derive s [row]; Ok (Rf [row] (samples s) [nth i (freqs s) 0] [nth i (powers s) 0] (cf d) (np d))
  | None => Raise IndexError
  end.
(** Assignments to the frequency of the first stream and to the attribute carrier_frequency (mixers.py 152-153, 300-301) *)
Definition set_frequency (s : rf) (f : R) : result rf :=
  if Rlt_dec f 0 then Raise ValueError
  else Ok (Rf (streams s) (samples s) (f :: tl (freqs s)) (powers s) f (np s)).

(** ** Blocks *)
Inductive direction := Up | Down.
(** mixers.py 285, source.py 145-147: a frequency of zero means the carrier frequency of the device *)
Definition oscillator (own device : R) : R := if Rlt_dec 0 own then own else device.
(** mixers.py 139-154: products of the samples of both streams *)
Definition mixer (d : direction) (x : rf) : result rf :=
  do a <- stream x 0; do b <- stream x 1;
  let f_in := nth 0 (freqs x) 0 in let f_lo := nth 1 (freqs x) 0 in
  let m := match d with Up => fun z w => (z * w)%C | Down => fun z w => (z * conj w)%C end in
  do o <- derive a [map (fun p => m (fst p) (snd p)) (combine (nth 0 (streams a) []) (nth 0 (streams b) []))];
  set_frequency o (match d with Up => f_in + f_lo | Down => f_in - f_lo end).
(** mixers.py 288-302 *)
Definition ideal_mixer (d : direction) (lo : R) (x : rf) : result rf :=
  do a <- stream x 0; do o <- copy a;
  let f_in := nth 0 (freqs x) 0 in
  set_frequency o (match d with Up => Rabs (f_in + lo) | Down => Rabs (f_in - lo) end).
(** x4.py 68-73: the frequencies are replaced, the attribute of the base class is not *)
Definition x4 (x : rf) : result rf :=
  do o <- copy x; Ok (Rf (streams o) (samples o) (map (fun f => f * 4) (freqs x)) (powers o) (cf o) (np o)).
(** sum.py 63-65: numpy.sum over the streams *)
Definition add_rows (n : nat) (rows : list (list C)) : list C :=
  fold_left (fun acc row => map (fun p => (fst p + snd p)%C) (combine acc row)) rows (repeat (RtoC 0) n).
Definition sum_block (x : rf) : result rf := derive x [add_rows (samples x) (streams x)].
(** split.py 58-60: numpy.tile repeats the rows of the first stream; the result takes its attributes from a signal with one stream *)
Definition split_block (outputs : nat) (x : rf) : result rf :=
  do a <- stream x 0; derive a (repeat (nth 0 (streams a) []) outputs).
(** shift.py 99-101: [num_quantization_bits] is stored but not read *)
Definition shift (phase : R) (bits : nat) (x : rf) : result rf :=
  derive x (map (map (fun z => z * cis phase)%C) (streams x)).
(** phase_noise.py 68-69, 190-200: [None] without phase noise, otherwise the phases of each stream and sample *)
Definition phase_noise (pn : option (nat -> nat -> R)) (x : rf) : result rf :=
  match pn with
  | None => Ok x
  | Some phi =>
      if ((length (streams x) =? 0) || (samples x =? 0))%nat then Ok x
      else derive x (map (fun p => map (fun q => snd q * cis (phi (fst p) (fst q)))%C (combine (seq 0 (length (snd p))) (snd p))) (combine (seq 0 (length (streams x))) (streams x)))
  end.
(** source.py 204-214: the frequency is set for the stream only (signal.py 191-203), the attribute of the base class keeps its default *)
Definition source (amplitude own device : R) (pn : option (nat -> nat -> R)) (n : nat) : result rf :=
  phase_noise pn (Rf [repeat (RtoC amplitude) n] n [oscillator own device] [0] 0 0).

(** ** FMCW ramps: ramp.py 151-211 *)
(** Python's int(): towards zero *)
Definition truncate (x : R) : Z := if Rle_dec 0 x then Int_part x else (- Int_part (- x))%Z.
(** 151-181.  Writing no samples into a slice of another size raises ValueError; slices end at negative positions from the end *)
Definition chirp (rate bandwidth slope interval : R) : result (list C) :=
  let guarded := truncate (interval * rate) in
  if Req_EM_T slope 0 then Raise ZeroDivisionError
  else
    let k := Z.min guarded (truncate (bandwidth / slope * rate)) in
    let start := if Rlt_dec 0 slope then - bandwidth else bandwidth in
    let g := Z.to_nat guarded in
    if (0 <=? k)%Z
    then Ok (map (fun n => let t := INR n / rate in cis (PI * (start * t + slope * t ^ 2))) (seq 0 (Z.to_nat k)) ++ repeat (RtoC 0) (g - Z.to_nat k))
    else if (guarded + k <=? 0)%Z then Ok (repeat (RtoC 0) g) else Raise ValueError.
(** 183-211: the chirps follow each other.  FromNDArray leaves all frequencies at their default. *)
Definition ramp (rate bandwidth slope interval : R) (chirps : nat) : result rf :=
  do c <- chirp rate bandwidth slope interval;
  let frame := concat (repeat c chirps) in Ok (Rf [frame] (length frame) [0] [0] 0 0).

(** ** Noise *)
(** level.py: the levels and the checks of their setters (100-106, 166-171, 275-280) *)
Inductive level := Thermal (temperature : R) | N0 (density : R) | Snr (snr reference scale : R).
Definition level_ok (l : level) : bool :=
  match l with
  | Thermal t => if Rlt_dec t 0 then false else true
  | N0 p => if Rlt_dec p 0 then false else true
  | Snr s _ _ => if Rle_dec s 0 then false else true
  end.
(** 109-110, 183-184, 258-259.  [boltzmann] is scipy.constants.Boltzmann *)
Definition boltzmann : R := 1380649 / 10 ^ 29.
Definition power_of (l : level) (bandwidth : R) : R :=
  match l with
  | Thermal t => 4 * 50 * boltzmann * t * bandwidth
  | N0 p => p * bandwidth
  | Snr s reference scale => reference / s * scale
  end.
(** 241: the hook of a channel replaces the scale by that of the latest channel sample *)
Definition observe (l : level) (s : R) : level := match l with Snr q r _ => Snr q r s | _ => l end.
(** model.py 140-160: [unit] are the samples (x + 1j y) of the generator *)
Definition awgn (power : R) (unit : nat -> nat -> C) (x : rf) : result rf :=
  if Rlt_dec power 0 then Raise ValueError          (* 42-43 *)
  else if Req_EM_T power 0 then Ok x
  else do c <- copy x;
       let rows := map (fun p => map (fun q => snd q + RtoC (sqrt (power / 2)) * unit (fst p) (fst q))%C (combine (seq 0 (length (snd p))) (snd p))) (combine (seq 0 (length (streams c))) (streams c)) in
       Ok (Rf rows (samples c) (freqs c) (powers c) (cf c) power).
(** block.py 181-252: check of the number of streams, block, noise.  The last slice selects all streams and samples. *)
Definition propagate (ports : nat) (block : rf -> result rf) (power : R) (unit : nat -> nat -> C) (x : rf) : result rf :=
  if negb (length (streams x) =? ports)%nat then Raise ValueError
  else do y <- block x; awgn power unit y.
