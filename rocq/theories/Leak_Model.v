(** Removal and estimation of leakage: hermespy/hardware_loop/calibration/leakage.py.
    Simplifications: signals are dense signals; numbers are exact; calibrations are used without transmit_ports and receive_ports, which no estimation passes on;
    the estimation is modelled without the peak filter (filter_calibration=False, 420-434) and without MMSEEstimate. *)
From Coq Require Import List Arith ZArith Lia Reals Lra Bool.
From Coquelicot Require Import Complex.
From Verif Require Import Base Cplx Iso_Model Corr_Model.
Import ListNotations.
Local Open Scope nat_scope.

(** SelectiveLeakageCalibration (32-85): the response has [l_rows] receiving and [l_cols] transmitting ports and [l_taps] samples *)
Record calibration := Calibration { leakage_response : Iso_Model.response; model_rate : R; model_delay : R }.
(** __init__ 66-85; None stands for arrays that do not have three dimensions *)
Definition make_calibration (r : option Iso_Model.response) (fs tau : R) : result calibration :=
  match r with
  | None => Raise ValueError
  | Some r => if Rle_dec fs 0 then Raise ValueError else if Rlt_dec tau 0 then Raise ValueError else Ok (Calibration r fs tau)
  end.

(** Length of scipy's full convolution of the taps with at least one sample *)
Definition leak_length (taps n : nat) : nat := if taps =? 0 then 0 else taps + n - 1.
(** numpy: entry j of a slice that ends at [e], which is counted from the end if negative *)
Definition slice_stop (n : nat) (e : Z) : nat := if (e <? 0)%Z then Z.to_nat (Z.of_nat n + e) else Nat.min (Z.to_nat e) n.
(** Lines 182-210 for one pair of ports: [p] are the predicted samples, [len] their number, [y] the received samples, [n] their number, [shift] the delay in samples.
    A subtraction or assignment of arrays of different lengths that numpy cannot repeat is a ValueError *)
Definition subtract (shift : Z) (len : nat) (p : nat -> C) (n : nat) (y : nat -> C) : result (nat -> C) :=
  if (0 <=? shift)%Z then
    let s := Z.to_nat shift in
    let leak_range := Nat.min (s + len) n in
    let available := Z.min (Z.of_nat n - shift) (Z.of_nat len) in
    let width := leak_range - Nat.min s n in
    let part := slice_stop len available in
    if (part =? width) || ((part =? 1) && (width =? 0)) then Ok (fun j => if (s <=? j) && (j <? leak_range) then (y j - p (j - s)%nat)%C else y j)
    else Raise ValueError
  else
    let k := Z.to_nat (- shift) in
    let leak_range := Z.min (Z.of_nat len + shift) (Z.of_nat n + shift) in
    let width := slice_stop n leak_range in
    let part := Nat.min n len - k in
    if part =? width then Ok (fun j => if j <? width then (y j - p (k + j)%nat)%C else y j)
    else Raise ValueError.
(** One pair of receiving port [m] and transmitting port [k] *)
Definition remove_pair (r : Iso_Model.response) (shift : Z) (tx : dense) (n : nat) (mk : nat * nat) (y : nat -> nat -> C) : result (nat -> nat -> C) :=
  let '(m, k) := mk in
  if l_cols r <=? k then Raise IndexError
  else do row <- subtract shift (leak_length (l_taps r) (samples tx)) (convolve_at (l_taps r) (samples tx) (l_e r m k) (at_ tx k)) n (y m);
       Ok (fun i => if i =? m then row else y i).
Fixpoint remove_pairs (r : Iso_Model.response) (shift : Z) (tx : dense) (n : nat) (l : list (nat * nat)) (y : nat -> nat -> C) : result (nat -> nat -> C) :=
  match l with [] => Ok y | mk :: t => do y' <- remove_pair r shift tx n mk y; remove_pairs r shift tx n t y' end.
(** np.ndindex (176-179) *)
Definition pairs (rows cols : nat) : list (nat * nat) := flat_map (fun m => map (fun k => (m, k)) (seq 0 cols)) (seq 0 rows).
(** remove_leakage 143-212 *)
Definition remove_leakage (c : calibration) (tx rx : dense) : result dense :=
  let r := leakage_response c in
  if Req_EM_T (rate tx) (rate rx) then
    if Req_EM_T (carrier tx) (carrier rx) then
      if samples tx <? 1 then Ok rx
      else
        let shift := round_even ((model_delay c - (delay tx + delay rx)) * rate rx) in
        do y <- remove_pairs r shift tx (samples rx) (pairs (Nat.min (streams rx) (l_rows r)) (Nat.min (streams tx) (l_rows r))) (at_ rx);
        Ok (Dense (streams rx) (samples rx) y (rate rx) (carrier rx) (delay rx))
    else Raise ValueError
  else Raise ValueError.

(** ** Estimation (257-444) *)
(** The probing sequences 270-279; probe p has root p + 1 *)
Definition zadoff_chu (n p i : nat) : C := cis (- (PI * INR (S p) * INR (i * (i + n mod 2 + 2)) / INR n)).
(** 286, 303-304: the sequence three times, sent by port [k] *)
Definition probe (n p k : nat) : nat -> nat -> C := fun i t => if i =? k then zadoff_chu n p (t mod n) else RtoC 0.
(** 311-318: [trigger x] are the samples received for the transmitted samples [x] of duration 3n; its second third is kept *)
Definition probed (trigger : (nat -> nat -> C) -> nat -> nat -> C) (n p m k t : nat) : C := trigger (probe n p k) m (n + t).
(** 287-289, 321-323 *)
Definition probing_frequency (n p f : nat) : C := fft_at Ortho (zadoff_chu n p) n f.
Definition received_frequency trigger (n p m k f : nat) : C := fft_at Ortho (probed trigger n p m k) n f.
(** 399-411 *)
Definition frequency_response trigger (probes n m k f : nat) : C :=
  (csum (fun p => conj (probing_frequency n p f) * received_frequency trigger n p m k f) probes
   / csum (fun p => conj (probing_frequency n p f) * probing_frequency n p f) probes)%C.
(** 414-417 *)
Definition time_response trigger (probes n m k t : nat) : C := ifft_at Backward (frequency_response trigger probes n m k) n t.
(** 369-381: all ports, a list of ports, or a slice of one port *)
Inductive selection := Slice (ports : list nat) | Fancy (ports : list nat).
Definition select (ports : option (list nat)) (total : nat) : result selection :=
  match ports with
  | None => Ok (Slice (seq 0 total))
  | Some [] => Raise IndexError
  | Some [i] => Ok (Slice (if i <? total then [i] else []))
  | Some l => Ok (Fancy l)
  end.
Definition check (total : nat) (s : selection) : result (list nat) :=
  match s with Slice l => Ok l | Fancy l => if forallb (fun i => i <? total) l then Ok l else Raise IndexError end.
(** LeastSquaresEstimate 329-444 for a device with [rx] receiving and [tx] transmitting ports, sampling rate [fs] and calibrated delay [tau].
    Two lists select pairs of ports, which yields two dimensions (415), refused by the constructor *)
Definition least_squares trigger (probes n tx rx : nat) (fs tau : R) (tx_ports rx_ports : option (list nat)) : result calibration :=
  do ts <- select tx_ports tx;
  do rs <- select rx_ports rx;
  if probes <? 1 then Raise ValueError
  else if n <? 1 then Raise ValueError
  else
    do tl <- check tx ts;
    do rl <- check rx rs;
    match rs, ts with
    | Fancy _, Fancy _ => if length rl =? length tl then Raise ValueError else Raise IndexError
    | _, _ => make_calibration (Some (Response (length rl) (length tl) n (fun m k t => time_response trigger probes n (nth m rl 0) (nth k tl 0) t))) fs tau
    end.
