(** Channels sampled by external ray tracers: hermespy/channel/quadriga/quadriga.py (cited by line as qua) and hermespy/channel/sionna_rt_channel.py (sio), with the blocks and states of Chan_Model.
    Simplifications: exact complex arithmetic; what the tracers return is an argument, for Quadriga one delay per path (qua 99 reads a single number), for Sionna the coefficients of the single pair of
    antennas of the arrays it is configured with (sio 238-245), which numpy broadcasts to the devices' antennas; carrier frequencies and noise powers are not modelled. *)
From Coq Require Import List Reals ZArith Bool Arith.
From Coquelicot Require Import Complex.
From Verif Require Import Base Cplx Chan_Model.
Import ListNotations.
Open Scope R_scope.

(** An array of rows, a section of which a block of rows is added to: out[:, from : from + len] += v *)
Definition add_section (acc : nat -> nat -> C) (from len : nat) (v : nat -> nat -> C) (r j : nat) : C :=
  if (Nat.leb from j && Nat.ltb j (from + len))%bool then (acc r j + v r (j - from)%nat)%C else acc r j.
(** np.max: the largest one, of at least one *)
Definition largest (l : list R) : result R := match l with [] => Raise ValueError | a :: l => Ok (fold_left Rmax l a) end.

(** * Quadriga *)
Record qpath := QPath { q_delay : R; q_coefficient : nat -> nat -> C }.
(** Antennas: receiving and transmitting ones of the link (the dimensions of the coefficients) and the receiving ones of the transmitting device, which qua 90 refers to *)
Record qsample := QSample { q_rx : nat; q_tx : nat; q_back : nat; q_bandwidth : R; q_gain : R; q_paths : list qpath }.
(** qua 99 *)
Definition q_shift (c : qsample) (p : qpath) : nat := in_samples (q_delay p) (q_bandwidth c).
(** qua 87, 116 *)
Definition q_overhead (c : qsample) : result nat := do m <- largest (map q_delay (q_paths c)); Ok (in_samples m (q_bandwidth c)).
(** qua 86-108.  A single received row is broadcast to all rows, other numbers of rows must agree; so must the inner dimensions of the product *)
Definition q_propagate (c : qsample) (s : blk) : result blk :=
  do overhead <- q_overhead c;
  let n := samples s in
  let width := (n + overhead)%nat in
  do y <- fold_left (fun acc p =>
      do a <- acc;
      if negb (Nat.eqb (q_tx c) (streams s)) then Raise ValueError
      else if negb (Nat.eqb (q_rx c) (q_back c) || Nat.eqb (q_rx c) 1)%bool then Raise ValueError
      else if negb (Nat.leb (q_shift c p + n) width) then Raise ValueError
      else let row r := if Nat.eqb (q_rx c) 1 then 0%nat else r in
           Ok (add_section a (q_shift c p) n (fun r i => csum (fun t => q_coefficient p (row r) t * x s t i)%C (streams s)))) (q_paths c) (Ok (fun _ _ => RtoC 0));
  Ok (Blk (q_back c) width (offset s) (fun r j => (y r j * RtoC (sqrt (q_gain c)))%C)).
(** qua 110-136.  A matrix is added to an array of matrices over samples: numpy aligns the last dimensions, the rows of the coefficients with the transmitting antennas and their columns with the samples *)
Definition q_state (c : qsample) (num_samples max_taps : nat) : result csi :=
  do overhead <- q_overhead c;
  let taps := Nat.min max_taps (overhead + 1) in
  do e <- fold_left (fun acc p =>
      do a <- acc;
      if negb (Nat.ltb (q_shift c p) taps) then Raise IndexError
      else if negb ((Nat.eqb (q_rx c) (q_tx c) || Nat.eqb (q_rx c) 1) && (Nat.eqb (q_tx c) num_samples || Nat.eqb (q_tx c) 1))%bool then Raise ValueError
      else let row t := if Nat.eqb (q_rx c) 1 then 0%nat else t in
           let column i := if Nat.eqb (q_tx c) 1 then 0%nat else i in
           Ok (fun r t i k => if Nat.eqb k (q_shift c p) then (a r t i k + q_coefficient p (row t) (column i))%C else a r t i k)) (q_paths c) (Ok (fun _ _ _ _ => RtoC 0));
  Ok (impulse_csi (q_rx c) (q_tx c) num_samples taps (fun r t i k => (e r t i k * RtoC (sqrt (q_gain c)))%C)).
(** qua 82-84: the real part of the sum of the coefficients (float of a complex number) *)
Definition q_scale (c : qsample) : R := q_gain c * fold_right Rplus 0 (flat_map (fun p => flat_map (fun r => map (fun t => fst (q_coefficient p r t)) (seq 0 (q_tx c))) (seq 0 (q_rx c))) (q_paths c)).

(** * Sionna *)
(** A ray's delay, -1 if it is not valid, and its coefficients over the samples *)
Record ray := SRay { s_delay : R; s_coefficient : nat -> C }.
(** Antennas of the receiver and the transmitter, and the quotient of their sampling rates (sio 135) *)
Record ssample := SSample { s_rx : nat; s_tx : nat; s_bandwidth : R; s_gain : R; s_ratio : R; s_rays : list ray }.
(** int(): towards zero *)
Definition truncate (r : R) : Z := if Rle_dec 0 r then Int_part r else (- Int_part (- r))%Z.
Definition ceil (r : R) : Z := (- Int_part (- r))%Z.
(** sio 106, 162 *)
Definition s_overhead (c : ssample) : result Z := do m <- largest (map s_delay (s_rays c)); Ok (ceil (m * s_bandwidth c)).
(** sio 123, 177; a negative one is only met for rays that are not valid *)
Definition s_shift (c : ssample) (p : ray) : nat := Z.to_nat (truncate (s_delay p * s_bandwidth c)).
Definition scaled (n : nat) (ratio : R) : nat := Z.to_nat (truncate (INR n * ratio)).
(** sio 133-188.  The product sums over the transmitting antennas and is the same for all receiving ones (169, 178) *)
Definition s_propagate (c : ssample) (s : blk) : result blk :=
  let n := samples s in
  match s_rays c with
  | [] => Ok (Blk (s_rx c) (scaled n (s_ratio c)) (scaled (offset s) (s_ratio c)) (fun _ _ => RtoC 0))
  | _ =>
      do overhead <- s_overhead c;
      if (Z.of_nat n + overhead <? 0)%Z then Raise ValueError
      else
        let width := Z.to_nat (Z.of_nat n + overhead) in
        do y <- fold_left (fun acc p =>
            do a <- acc;
            if Req_EM_T (s_delay p) (-1) then Ok a
            else if negb (Nat.leb (s_shift c p + n) width) then Raise ValueError
            else Ok (add_section a (s_shift c p) n (fun _ i => csum (fun t => s_coefficient p i * x s t i)%C (streams s)))) (s_rays c) (Ok (fun _ _ => RtoC 0));
        Ok (Blk (s_rx c) width (scaled (offset s) (s_ratio c)) (fun r j => (y r j * RtoC (sqrt (s_gain c)))%C))
  end.
(** sio 84-130 *)
Definition s_state (c : ssample) (num_samples max_taps : nat) : result csi :=
  do overhead <- match s_rays c with [] => Ok (ceil (0 * s_bandwidth c)) | _ => s_overhead c end;
  let taps := (1 + Z.min (Z.of_nat max_taps) overhead)%Z in
  if (taps <? 0)%Z then Raise ValueError
  else
    do e <- fold_left (fun acc p =>
        do a <- acc;
        if Rlt_dec (s_delay p) 0 then Ok a
        else if Nat.leb max_taps (s_shift c p) then Ok a
        else if negb (Nat.ltb (s_shift c p) (Z.to_nat taps)) then Raise IndexError
        else Ok (fun i k => if Nat.eqb k (s_shift c p) then (a i k + s_coefficient p i)%C else a i k)) (s_rays c) (Ok (fun _ _ => RtoC 0));
    Ok (impulse_csi (s_rx c) (s_tx c) num_samples (Z.to_nat taps) (fun _ _ i k => (e i k * RtoC (sqrt (s_gain c)))%C)).
(** sio 71-81: the modulus of the sum of the coefficients before Doppler shifts, those of the first sample *)
Definition s_scale (c : ssample) : R := Cmod (fold_right Cplus (RtoC 0) (map (fun p => s_coefficient p 0%nat) (s_rays c))).
