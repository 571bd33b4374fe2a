(** Models hermespy/modem/waveform_correlation_synchronization.py: synchronization to frames by correlation with the pilot signal,
    including the parts of scipy.signal.correlate and scipy.signal.find_peaks it uses.

    Simplifications for the whole file
    - samples are complex numbers, correlations are computed with real numbers (not by Fourier transforms);
    - 0.8 times the frame length is rounded down exactly;
    - peaks of equal height are visited from the last to the first (the order of numpy.argsort is unspecified). *)
From Coq Require Import List Reals Bool Arith ZArith Lra.
From Coquelicot Require Import Complex.
From Verif Require Import Base Cplx.
Import ListNotations.

(** 41-70: the configured threshold and guard ratio *)
Record sync := Sync { threshold : R; guard_ratio : R }.
(** 85-92, 110-117 *)
Definition set_threshold (s : sync) (v : R) : result sync :=
  if Rlt_dec v 0 then Raise ValueError else if Rlt_dec 1 v then Raise ValueError else Ok (Sync v (guard_ratio s)).
Definition set_guard_ratio (s : sync) (v : R) : result sync :=
  if Rlt_dec v 0 then Raise ValueError else if Rlt_dec 1 v then Raise ValueError else Ok (Sync (threshold s) v).

(** scipy.signal.correlate in mode "full": entry [k] correlates with the pilot starting at sample [k - (length pilot - 1)] *)
Definition correlate (stream pilot : list C) (k : nat) : C :=
  csum (fun l => if k <=? l + (length pilot - 1) then at0 stream l * conj (at0 pilot (l + (length pilot - 1) - k)) else RtoC 0)%C (length stream).
(** 142-144: magnitudes summed over all streams *)
Definition correlation (streams : list (list C)) (pilot : list C) (k : nat) : R :=
  fold_right Rplus 0%R (map (fun s => Cmod (correlate s pilot k)) streams).
(** 146: the maximum of the first [n] entries *)
Fixpoint maximum (f : nat -> R) (n : nat) : R :=
  match n with
  | O => f 0
  | S k => Rmax (maximum f k) (f (S k))
  end.

(** ** scipy.signal.find_peaks *)
(** End of the plateau starting at [i]: the first different entry, at most the last entry *)
Fixpoint ahead (f : nat -> R) (i : nat) (j room : nat) : nat :=
  match room with
  | O => j
  | S r => if Req_EM_T (f j) (f i) then ahead f i (S j) r else j
  end.
(** Middle of each plateau higher than its neighbours; first and last entry are no peaks *)
Definition peak_at (f : nat -> R) (n i : nat) : list nat :=
  if Rlt_dec (f (i - 1)) (f i) then let j := ahead f i (S i) (n - 1 - S i) in if Rlt_dec (f j) (f i) then [(i + j - 1) / 2] else [] else [].
Definition local_maxima (f : nat -> R) (n : nat) : list nat := flat_map (peak_at f n) (seq 1 (n - 2)).
(** Peaks in order of decreasing height *)
Fixpoint insert (f : nat -> R) (p : nat) (l : list nat) : list nat :=
  match l with
  | [] => [p]
  | q :: r => if Rle_dec (f q) (f p) then p :: l else q :: insert f p r
  end.
Definition by_height (f : nat -> R) (l : list nat) : list nat := fold_left (fun acc p => insert f p acc) l [].
(** The highest peaks are kept, and those at least [d] entries from all higher kept ones *)
Definition close (d p q : nat) : bool := (p - q + (q - p)) <? d.
Definition keep (d : nat) (order : list nat) : list nat :=
  fold_left (fun kept p => if existsb (close d p) kept then kept else p :: kept) order [].
Definition find_peaks (f : nat -> R) (n : nat) (height : R) (d : nat) : result (list nat) :=
  if d <? 1 then Raise ValueError
  else let high := filter (fun p => if Rle_dec height (f p) then true else false) (local_maxima f n) in
       Ok (filter (fun p => existsb (Nat.eqb p) (keep d (by_height f high))) high).

(** ** 119-170 *)
(** 158-168 *)
Definition correct (n pilot frame : nat) (k : nat) : Z :=
  let i := (Z.of_nat k - (Z.of_nat pilot - 1))%Z in
  let i := if (i <? 0)%Z then 0%Z else i in
  if (Z.of_nat n - Z.of_nat frame <? i)%Z then Z.abs (Z.of_nat n - Z.of_nat frame) else i.
(** 146-152: height and distance are constants, threshold and guard ratio are not used; a division by a maximum of zero results in no numbers and no peaks *)
Definition detected (streams : list (list C)) (n : nat) (pilot : list C) (frame : nat) : result (list nat) :=
  let f := correlation streams pilot in
  let m := maximum f (length pilot + n - 2) in
  if (8 * frame / 10 <? 1) then Raise ValueError
  else if Req_EM_T m 0 then Ok [] else find_peaks (fun k => (f k / m)%R) (length pilot + n - 1) (9 / 10) (8 * frame / 10).
Definition synchronize (s : sync) (streams : list (list C)) (n : nat) (pilot : list C) (frame : nat) : result (list Z) :=
  if (length streams * n =? 0) then Ok []
  else if length pilot =? 0 then Raise RuntimeError
  else do peaks <- detected streams n pilot frame; Ok (map (correct n (length pilot) frame) peaks).
