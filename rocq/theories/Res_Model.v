(** Resampling signals and mixing them to other carrier frequencies: hermespy/core/signal_model.py (SignalBlock 513-716, SparseSignal 1676-1740, 2335-2345; cited by line)
    and hermespy/tools/resampling.py (res).
    Simplifications: sampling rates, frequencies and samples are exact; the coefficients of scipy's filters are parameters. *)
From Coq Require Import List Reals ZArith Bool Arith.
From Coquelicot Require Import Complex.
From Verif Require Import Base Cplx Chan_Model.
From Verif Require Sc_Model.
Import ListNotations.
Open Scope R_scope.

(** * Resampling *)
(** scipy's filters, for a single stream: decimate (563) by a factor, the low pass of [_resample_antialiasing] (660-670) for a cutoff, both for a number of samples;
    the coefficients of firwin (630-635) for a cutoff and a sampling rate *)
Record routines := Routines { decimated : nat -> nat -> (nat -> C) -> nat -> C; lowpassed : R -> nat -> (nat -> C) -> nat -> C; fir : R -> R -> nat -> R }.
(** Both filters run forwards and backwards (sosfiltfilt) and extend the samples by 27 of them at both ends: three times nine, for the order eight of both (563, 572, 581).
    Shorter signals raise a ValueError *)
Definition padding : nat := 27.
(** 672-716 [_resample] *)
Definition resampled_count (n : nat) (old new : R) : nat := Z.to_nat (rint (INR n * new / old)).
Definition resampled (n : nat) (f : nat -> C) (old new : R) (j : nat) : C :=
  csum (fun i => f i * RtoC (Sc_Model.sinc ((INR i / old - INR j / new) * old)))%C n.
(** int(.) of a number that is not negative, 553 *)
Definition cut (r : R) : nat := Z.to_nat (Int_part r).
(** 562: whole numbers *)
Definition whole (r : R) : bool := if Req_EM_T (IZR (Int_part r)) r then true else false.
(** 513-585 *)
Definition resample_block (rt : routines) (old new : R) (aliasing_filter : bool) (b : blk) : result blk :=
  if Rle_dec old 0 then Raise ValueError else if Rle_dec new 0 then Raise ValueError
  else if Req_EM_T old new then Ok b
  else
    let off := Z.to_nat (rint (INR (offset b) * new / old)) in
    if Nat.ltb (samples b) 1 then Ok b
    else if Nat.ltb (streams b) 1 then Ok (Blk 0 (cut (INR (samples b) * new / old)) off (fun _ _ => RtoC 0))
    else
      let down := if Rlt_dec new old then true else false in
      let n := samples b in
      if (down && whole (old / new))%bool then
        if Nat.leb n padding then Raise ValueError
        else Ok (Blk (streams b) (ceil_div n (cut (old / new))) off (fun r => decimated rt (cut (old / new)) n (x b r)))
      else if (aliasing_filter && down)%bool then
        if Nat.leb n padding then Raise ValueError
        else Ok (Blk (streams b) (resampled_count n old new) off (fun r => resampled n (lowpassed rt (new / old) n (x b r)) old new))
      else
        let m := resampled_count n old new in
        if aliasing_filter then
          if Nat.leb m padding then Raise ValueError
          else Ok (Blk (streams b) m off (fun r => lowpassed rt (old / new) m (resampled n (x b r) old new)))
        else Ok (Blk (streams b) m off (fun r => resampled n (x b r) old new)).
(** 2335-2345: a sparse signal *)
Definition resample_sparse (rt : routines) (old new : R) (aliasing_filter : bool) (l : list blk) : result (list blk) := mapM (resample_block rt old new aliasing_filter) l.
(** 478-483, 1692-1695 *)
Definition end_of (b : blk) : nat := (offset b + samples b)%nat.
(** 1734-1740: later blocks overwrite *)
Definition dense_at (l : list blk) (r n : nat) : C :=
  fold_left (fun v b => if (Nat.leb (offset b) n && Nat.ltb n (end_of b))%bool then x b r (n - offset b)%nat else v) l (RtoC 0).

(** * Mixing, 601-658 *)
Definition taps : nat := 257.
(** convolve1d: centred, with zeros around the samples, 641-643 *)
Definition around (n : nat) (f : nat -> C) (z : Z) : C := if ((0 <=? z) && (z <? Z.of_nat n))%Z then f (Z.to_nat z) else RtoC 0.
Definition convolved (h : nat -> C) (n : nat) (f : nat -> C) (i : nat) : C := csum (fun k => h k * around n f (Z.of_nat i + 128 - Z.of_nat k))%C taps.
(** firwin wants its cutoff between zero and half the sampling rate *)
Definition superimpose_to (rt : routines) (target_rate target_carrier rate carrier : R) (b : blk) : result blk :=
  if Rle_dec target_rate 0 then Raise ValueError else if Rle_dec rate 0 then Raise ValueError
  else if (if Req_EM_T target_rate rate then if Req_EM_T target_carrier carrier then true else false else false) then Ok b
  else
    let distance := target_carrier - carrier in
    let overlap := 1 / 2 * (target_rate + rate) - Rabs distance in
    if Rle_dec overlap 0 then Ok (Blk (streams b) (samples b) (offset b) (fun _ _ => RtoC 0))
    else if Rle_dec (rate / 2) (1 / 2 * overlap) then Raise ValueError
    else
      let h k := (RtoC (fir rt (1 / 2 * overlap) rate k) * cis (2 * PI * (1 / 2) * distance / rate * INR k))%C in
      Ok (Blk (streams b) (samples b) (offset b) (fun r i => (convolved h (samples b) (x b r) i * cis (- (2 * PI * INR i * distance / rate)))%C)).

(** * Delays, res 22-61 *)
Definition sign (r : R) : Z := if Rlt_dec 0 r then 1%Z else if Rlt_dec r 0 then (-1)%Z else 0%Z.
Definition ceiling (r : R) : Z := (- Int_part (- r))%Z.
(** Rows and entries of the matrix *)
Definition delay_rows (rate : R) (n : nat) (delay : R) (out : option nat) : nat :=
  match out with None => Z.to_nat (Z.of_nat n + ceiling (Rabs delay * rate) * sign delay) | Some m => m end.
Definition delay_entry (rate delay : R) (j i : nat) : R := Sc_Model.sinc (INR j - delay * rate - INR i).
Definition delay_apply (rate : R) (n : nat) (delay : R) (f : nat -> C) (j : nat) : C := csum (fun i => RtoC (delay_entry rate delay j i) * f i)%C n.
