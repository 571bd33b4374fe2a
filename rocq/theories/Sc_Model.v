(** Models hermespy/modem/waveform_single_carrier.py: frames, pulse shaping and channel estimation of single carrier waveforms, and
    ConfigurablePilotWaveform.pilot_symbols of hermespy/modem/waveform.py.

    Simplifications for the whole file
    - integer parameters are natural numbers (the setters reject negative ones);
    - samples and symbols are complex numbers, filters are computed with real numbers;
    - symbol mappings are verified separately (Qam_Model) and are a parameter here;
    - quotients of integers converted by int() are the integer division. *)
From Coq Require Import List Reals Bool Arith Lra.
From Coquelicot Require Import Complex.
From Verif Require Import Base Cplx.
Import ListNotations.

(** ** Reference symbols: waveform.py 797-820 (an empty sequence divides by zero, 810) *)
Definition pilot_symbols (sequence : list C) (repeats : bool) (n : nat) : result (list C) :=
  match sequence with
  | [] => Raise ZeroDivisionError
  | _ => let reps := (n + length sequence - 1) / length sequence in
         if 1 <? reps then (if repeats then Ok (firstn n (concat (List.repeat sequence reps))) else Raise RuntimeError)
         else Ok (firstn n sequence)
  end.
(** 204-210: setting the modulation order replaces the mapping and the pilot sequence *)
Record waveform := Waveform { order : nat; sequence : list C }.
Definition power_of_two (n : nat) : bool := (0 <? n) && (2 ^ Nat.log2 n =? n).
Definition set_order (mapping : nat -> list C) (w : waveform) (n : nat) : result waveform :=
  if power_of_two n then Ok (Waveform n (mapping n)) else Raise ValueError.

(** ** Frames *)
Record layout := Layout { preamble : nat; data : nat; postamble : nat; rate : nat }.
(** 333-338 *)
Definition num_pilots (l : layout) : nat := if rate l =? 0 then 0 else data l / rate l - 1.
(** 340-347 *)
Definition payload (l : layout) : nat := data l + num_pilots l.
Definition frame_symbols (l : layout) : nat := preamble l + payload l + postamble l.
(** 349-357 *)
Definition pilot_indices (l : layout) : list nat :=
  if rate l =? 0 then [] else map (fun k => (k + 1) * (1 + rate l) - 1) (seq 0 (num_pilots l)).
(** 359-369 (numpy.delete) *)
Definition data_indices (l : layout) : list nat :=
  filter (fun i => negb (existsb (Nat.eqb i) (pilot_indices l))) (seq 0 (payload l)).
(** Assignment to selected positions of an array; a single value is repeated *)
Fixpoint write_one {X} (i : nat) (v : X) (l : list X) : list X :=
  match l, i with
  | [], _ => []
  | _ :: t, O => v :: t
  | h :: t, S j => h :: write_one j v t
  end.
Definition write {X} (idx : list nat) (vals : list X) (l : list X) : result (list X) :=
  if length vals =? length idx then Ok (fold_left (fun acc p => write_one (fst p) (snd p) acc) (combine idx vals) l)
  else match vals with
       | [v] => Ok (fold_left (fun acc i => write_one i v acc) idx l)
       | _ => Raise ValueError
       end.
(** 237-262: the frame is allocated without initial values ([None]) *)
Definition place (l : layout) (pilots_for : nat -> result (list C)) (symbols : list C) : result (list (option C)) :=
  let p := preamble l in let q := num_pilots l in
  do pilots <- pilots_for (p + q + postamble l);
  do f1 <- write (seq 0 p) (map Some (firstn p pilots)) (List.repeat None (frame_symbols l));
  do f2 <- write (seq (p + payload l) (postamble l)) (map Some (skipn (p + q) pilots)) f1;
  do f3 <- write (map (Nat.add p) (pilot_indices l)) (map Some (firstn q (skipn p pilots))) f2;
  write (map (Nat.add p) (data_indices l)) (map Some symbols) f3.
(** 264-270, the symbols of one stream *)
Definition pick {X} (l : layout) (placed : list X) : result (list X) :=
  mapM (fun i => match nth_error placed i with Some v => Ok v | None => Raise IndexError end) (map (Nat.add (preamble l)) (data_indices l)).

(** ** Pulse shaping *)
(** numpy.convolve: full convolution, empty arguments are rejected *)
Definition conv_at (a b : list C) (n : nat) : C := csum (fun k => at0 a k * at0 b (n - k))%C (S n).
Definition convolve (a b : list C) : result (list C) :=
  match a, b with
  | [], _ => Raise ValueError
  | _, [] => Raise ValueError
  | _, _ => Ok (tab (length a + length b - 1) (conv_at a b))
  end.
(** 276-277, 975-976: symbols on a comb of zeros, [step] samples apart; a single symbol would be repeated *)
Definition comb (n step : nat) (symbols : list C) : result (list C) :=
  if (n =? 0) then Raise ValueError
  else match (if length symbols =? n then Some symbols else match symbols with [v] => Some (List.repeat v n) | _ => None end) with
       | Some s => Ok (tab (1 + (n - 1) * step) (fun i => if i mod step =? 0 then at0 s (i / step) else RtoC 0))
       | None => Raise ValueError
       end.
Record shaping := Shaping { spacing : nat; tx : list C; rx : list C; delay : nat }.
(** 272-281, 970-980 *)
Definition modulate (s : shaping) (n : nat) (symbols : list C) : result (list C) :=
  do f <- comb n (spacing s) symbols; convolve f (tx s).
(** 283-295, 982-995: every [spacing]-th sample of [delay : delay + n * spacing] *)
Definition demodulate (s : shaping) (n : nat) (signal : list C) : result (list C) :=
  do f <- convolve signal (rx s);
  Ok (map (fun j => at0 f (delay s + j * spacing s)) (filter (fun j => delay s + j * spacing s <? length f) (seq 0 n))).
(** 392-396 *)
Definition samples_per_frame (s : shaping) (n : nat) : nat := (n - 1) * spacing s + length (tx s).
(** 932-933: frequency modulated waveforms *)
Definition fmcw_samples_per_frame (os chirp n : nat) : nat := n * chirp * os.
(** 389-390: the guard interval is not used *)
Definition frame_duration (n : nat) (bandwidth guard : R) : R := (INR n / bandwidth)%R.
(** 212-227: the pilot symbols are always [oversampling] samples apart *)
Definition pilot_signal (s : shaping) (oversampling preamble : nat) (pilots : list C) : result (list C) :=
  if preamble =? 0 then Ok [] else do f <- comb preamble oversampling pilots; convolve f (tx s).

(** Rectangular pulses: 877-887 *)
Definition rectangular (os : nat) : shaping :=
  Shaping os (List.repeat (RtoC 1) os) (List.repeat (RtoC (/ INR os)) os) (os - 1).
(** FMCW pulses: 949-968 *)
Definition fmcw_tx (os chirp : nat) : list C :=
  tab (chirp * os) (fun t => cis (PI * (- 1 / INR os * INR t + 1 / (INR os ^ 2 * INR chirp) * INR t ^ 2)))%R.
Definition fmcw (os chirp : nat) : shaping :=
  Shaping (os * chirp) (fmcw_tx os chirp) (map (fun z => conj z * RtoC (/ (INR os * INR chirp)))%C (rev (fmcw_tx os chirp))) (os * chirp - 1).
(** Pulses with roll-off: 744-754, with the instants of 787-796 = 835-844 (numpy.linspace) *)
Definition instant (len os : nat) (i : nat) : R :=
  let half := INR (len / 2) in
  let steps := if Nat.odd len then len * os - 1 else len * os in
  (- half + INR i * (2 * half / INR steps))%R.
Definition rolled_off (pulse : R -> R) (bandwidth : R) (len os : nat) : shaping :=
  let h := map (fun i => RtoC (pulse (instant len os i * bandwidth)%R)) (seq 0 (len * os)) in
  Shaping os h (map (fun z => z * RtoC (/ INR os))%C h) (2 * (len / 2) * os).
(** numpy.sinc *)
Definition sinc (x : R) : R := (if Req_EM_T x 0 then 1 else sin (PI * x) / (PI * x))%R.
(** 846-859 *)
Definition raised_cosine (beta t : R) : R :=
  (if Req_EM_T beta 0 then sinc t * cos (PI * beta * t) / (1 - (2 * beta * t) ^ 2)
   else if Req_EM_T (Rabs t) (1 / (2 * beta)) then PI / 4 * sinc (1 / (2 * beta))
   else sinc t * cos (PI * beta * t) / (1 - (2 * beta * t) ^ 2))%R.
(** 798-821 *)
Definition root_raised_cosine (beta t : R) : R :=
  (if Req_EM_T t 0 then 1 + beta * (4 / PI - 1)
   else if Req_EM_T beta 0 then (sin (PI * t * (1 - beta)) + 4 * beta * t * cos (PI * t * (1 + beta))) / (PI * t * (1 - (4 * beta * t) ^ 2))
   else if Req_EM_T (Rabs t) (1 / (4 * beta))
        then beta / sqrt 2 * ((1 + 2 / PI) * sin (PI / (4 * beta)) + (1 - 2 / PI) * cos (PI / (4 * beta)))
        else (sin (PI * t * (1 - beta)) + 4 * beta * t * cos (PI * t * (1 + beta))) / (PI * t * (1 - (4 * beta * t) ^ 2)))%R.

(** ** Least squares channel estimation: 516-563, for one stream *)
(** numpy.interp of complex values at integer positions: between the surrounding points, constant outside *)
Fixpoint cinterp_from (x0 : nat) (y0 : C) (l : list (nat * C)) (x : nat) : C :=
  match l with
  | [] => y0
  | (x1, y1) :: r => if x <? x1 then (y0 + RtoC (INR x - INR x0) * ((y1 - y0) / RtoC (INR x1 - INR x0)))%C else cinterp_from x1 y1 r x
  end.
Definition cinterp (points : list (nat * C)) (x : nat) : result C :=
  match points with
  | [] => Raise ValueError
  | (x0, y0) :: r => Ok (if x <? x0 then y0 else cinterp_from x0 y0 r x)
  end.
(** The positions of all reference symbols (547-553) *)
Definition reference_indices (l : layout) : list nat :=
  seq 0 (preamble l) ++ map (fun i => i + preamble l) (pilot_indices l) ++ map (fun i => i + preamble l + payload l) (seq 0 (postamble l)).
(** 516-563 for a received frame with all its symbols *)
Definition estimate (l : layout) (pilots_for : nat -> result (list C)) (received : list C) : result (list C) :=
  do transmitted <- pilots_for (preamble l + num_pilots l + postamble l);
  let stems := map (fun p => (at0 received (fst p) / snd p)%C) (combine (reference_indices l) transmitted) in
  do _ <- cinterp (combine (reference_indices l) stems) 0;
  mapM (cinterp (combine (reference_indices l) stems)) (seq 0 (length received)).
(** Zero forcing with a single stream (modem/waveform.py 238-245) *)
Definition equalize (symbols states : list C) : list C := map (fun p => (fst p / snd p)%C) (combine symbols states).
