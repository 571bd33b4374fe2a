(** Models hermespy/modem/waveform_chirp_fsk.py: chirp frequency shift keying.

    Simplifications for the whole file
    - the modulation order is given by its number of bits (the setter of waveform.py 314-332 accepts powers of two only);
    - the guard interval is given by its number of samples (the rounding of line 249);
    - samples are complex numbers, phases are real numbers; symbols are natural numbers. *)
From Coq Require Import List Reals Bool Arith Lra ZArith.
From Coquelicot Require Import Complex.
From Verif Require Import Base Cplx.
Import ListNotations.

(** 53-93 with the numbers of samples and bandwidth given to modulation and demodulation *)
Record fsk := Fsk { bits_per_symbol : nat; duration : R; difference : R; pilots : nat; chirps : nat; guard : nat; bandwidth : R; oversampling : nat }.
Definition order (c : fsk) : nat := 2 ^ bits_per_symbol c.
(** 227-238 *)
Definition samples_in_chirp (c : fsk) : nat := Z.to_nat (- Int_part (- (duration c * bandwidth c * INR (oversampling c)))).
(** 247-250 *)
Definition samples_per_frame (c : fsk) : nat := samples_in_chirp c * (pilots c + chirps c) + guard c.

(** ** Bits *)
(** 346-361: a matrix of bits with one column per symbol (numpy.reshape with an empty first dimension fails) *)
Definition b2n (b : bool) : nat := if b then 1 else 0.
Fixpoint offset (bits : list bool) : nat :=
  match bits with
  | [] => 0
  | b :: r => 2 ^ length r * b2n b + offset r
  end.
Definition map_bits (c : fsk) (bits : list bool) : result (list nat) :=
  let n := bits_per_symbol c in
  if n =? 0 then Raise ValueError
  else if length bits mod n =? 0 then Ok (map offset (blocks_of (length bits / n) n bits)) else Raise ValueError.
(** 264-274: numpy.binary_repr of given width; longer representations do not fit *)
Fixpoint digits (width v : nat) : list bool :=
  match width with
  | O => []
  | S w => Nat.odd (v / 2 ^ w) :: digits w v
  end.
Definition unmap_symbol (c : fsk) (v : nat) : result (list bool) :=
  if v <? order c then Ok (digits (bits_per_symbol c) v) else Raise ValueError.
Definition unmap (c : fsk) (symbols : list nat) : result (list bool) :=
  do blocks <- mapM (unmap_symbol c) symbols; Ok (concat blocks).

(** ** Chirps: 373-424 *)
Section Chirps.
Local Open Scope R_scope.
Definition sampling_rate (c : fsk) : R := INR (oversampling c) * bandwidth c.
(** 396-400: zero selects a division of the bandwidth by the modulation order *)
Definition step (c : fsk) : R := if Req_EM_T (difference c) 0 then bandwidth c / INR (order c) else difference c.
(** 401-412 *)
Definition frequency (c : fsk) (idx k : nat) : R :=
  let f := INR k / sampling_rate c * (bandwidth c / duration c) + (- (1 / 2) * bandwidth c + INR idx * step c) in
  if Rlt_dec (1 / 2 * bandwidth c) f then f - bandwidth c else f.
(** 414-420: cumulative integral by the trapezoidal rule, in cycles *)
Fixpoint cycles (c : fsk) (idx k : nat) : R :=
  match k with
  | O => 0
  | S j => cycles c idx j + (frequency c idx j + frequency c idx (S j)) / 2 * (1 / sampling_rate c)
  end.
Definition chirp (c : fsk) (idx : nat) : list C := tab (samples_in_chirp c) (fun k => cis (2 * PI * cycles c idx k)).
End Chirps.
(** 427-446 *)
Definition pilot_signal (c : fsk) : list C := concat (map (fun i => chirp c (i mod order c)) (seq 0 (pilots c))).

(** ** Modulation: 285-317. The frame is allocated without initial values ([None]) *)
(** Assignment of an array to a slice of its length; a shorter slice accepts an array of one element only *)
Definition store (a : nat) (v : list C) (f : list (option C)) : result (list (option C)) :=
  if a + length v <=? length f then Ok (firstn a f ++ map Some v ++ skipn (a + length v) f)
  else if length v =? 1 then Ok f else Raise ValueError.
Fixpoint store_all (c : fsk) (a : nat) (symbols : list nat) (f : list (option C)) : result (list (option C)) :=
  match symbols with
  | [] => Ok f
  | s :: r => if s <? order c then do g <- store a (chirp c s) f; store_all c (a + samples_in_chirp c) r g else Raise IndexError
  end.
Definition modulate (c : fsk) (symbols : list nat) : result (list (option C)) :=
  let p := pilot_signal c in
  do f <- store 0 p (List.repeat None (samples_per_frame c));
  store_all c (length p) symbols f.

(** ** Demodulation: 320-344 *)
(** numpy.argmax of [f 0 .. f n]: the first index of the maximum *)
Fixpoint argmax (f : nat -> R) (n : nat) : nat :=
  match n with
  | O => 0
  | S k => let m := argmax f k in if Rlt_dec (f m) (f (S k)) then S k else m
  end.
Definition metric (c : fsk) (x : list C) (j : nat) : R := Cmod (csum (fun k => at0 x k * conj (at0 (chirp c j) k))%C (samples_in_chirp c)).
Definition detect (c : fsk) (x : list C) : nat := argmax (metric c x) (order c - 1).
Definition demodulate (c : fsk) (signal : list C) : result (list nat) :=
  let n := samples_in_chirp c in
  let x := firstn (n * chirps c) (skipn (n * pilots c) signal) in
  if n =? 0 then Raise ValueError
  else if length x mod n =? 0 then Ok (map (detect c) (blocks_of (length x / n) n x)) else Raise ValueError.
(** 96-100 *)
Definition frame_duration (c : fsk) (guard_interval : R) : R := (duration c * INR (chirps c + pilots c) + guard_interval)%R.
