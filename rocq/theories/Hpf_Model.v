(** Filters of radio-frequency chains: hermespy/simulation/rf/blocks/filters.py (Filter, HPF).
    Signals are functions from streams and samples to complex numbers with their numbers of streams and samples.
    Simplifications: scipy.signal.butter is a function that may raise, checked for the cutoff below half the sampling rate; scipy.signal.filtfilt
    with its default settings (odd extension by three times the number of coefficients) is modelled in exact arithmetic for coefficients
    with leading denominator 1, and the initial state of scipy.signal.lfilter_zi is given with them; noise is left out. *)
From Coq Require Import List Arith Bool Reals ZArith.
From Coquelicot Require Import Complex.
From Verif Require Import Base.
Import ListNotations.
Open Scope R_scope.

(** 175-180, 194-199 *)
Definition set_cutoff (v : R) : result R := if Rle_dec v 0 then Raise ValueError else Ok v.
Definition set_order (v : Z) : result nat := if Z.ltb v 1 then Raise ValueError else Ok (Z.to_nat v).
Record hpf := mkHpf { cutoff : R; order : nat }.
(** 135-163 *)
Definition new_hpf (c : R) (o : Z) : result hpf := do c <- set_cutoff c; do o <- set_order o; Ok (mkHpf c o).

(** 24-62: coefficients, 0 beyond the order, and the initial state for constant ones *)
Record coefficients := mkCoefficients { degree : nat; numerator : nat -> C; denominator : nat -> C; initial : nat -> C }.
(** 201-219, 222-234: [design] is what scipy.signal.butter computes *)
Definition realize (design : R -> R -> nat -> coefficients) (f : hpf) (bandwidth : R) (oversampling : nat) : result coefficients :=
  let fs := bandwidth * INR oversampling in
  if Rlt_dec (cutoff f) (fs / 2) then Ok (design (cutoff f) fs (order f)) else Raise ValueError.

(** scipy.signal.lfilter, used by filtfilt (called at 121-123): a transposed direct form with the state z before sample k *)
Fixpoint state (c : coefficients) (z : nat -> C) (x : nat -> C) (k : nat) : nat -> C :=
  match k with
  | O => z
  | S k => let s := state c z x k in let y := (numerator c 0%nat * x k + s 0%nat)%C in
           fun i => if (i <? degree c)%nat then (numerator c (S i) * x k + s (S i) - denominator c (S i) * y)%C else RtoC 0
  end.
Definition lfilter (c : coefficients) (z x : nat -> C) (k : nat) : C := (numerator c 0%nat * x k + state c z x k 0%nat)%C.
Definition scaled (v : C) (z : nat -> C) : nat -> C := fun i => (v * z i)%C.
(** 121-123: the odd extension of n samples by e at both ends *)
Definition extended (e n : nat) (x : nat -> C) (j : nat) : C :=
  if (j <? e)%nat then (2 * x 0%nat - x (e - j)%nat)%C else if (j <? e + n)%nat then x (j - e)%nat else (2 * x (n - 1)%nat - x (n - 2 - (j - e - n))%nat)%C.
Definition edge (c : coefficients) : nat := (3 * (degree c + 1))%nat.
(** 121-123: scipy.signal.filtfilt of a row: forwards, backwards, without the extension *)
Definition filtfilt (c : coefficients) (n : nat) (x : nat -> C) (k : nat) : C :=
  let e := edge c in let m := (n + 2 * e)%nat in
  let u := extended e n x in
  let y := lfilter c (scaled (u 0%nat) (initial c)) u in
  let r := fun j => y (m - 1 - j)%nat in
  lfilter c (scaled (r 0%nat) (initial c)) r (m - 1 - (k + e))%nat.

(** simulation/rf/signal.py, as passed on at 125-127: streams, samples, values, sampling rate *)
Record signal := mkSignal { streams : nat; samples : nat; value : nat -> nat -> C; sampling_rate : R }.
(** 120-127 *)
Definition propagate (c : coefficients) (s : signal) : result signal :=
  if (samples s <=? edge c)%nat then Raise ValueError
  else Ok (mkSignal (streams s) (samples s) (fun r => filtfilt c (samples s) (value s r)) (sampling_rate s)).
