(** Models the channel samples of hermespy/channel/sionna_rt_channel.py (ray tracing, line numbers without file name) and of
    hermespy/channel/quadriga/quadriga.py.

    Simplifications for the whole file
    - exact complex arithmetic; numpy arrays are functions of their indices (Chan_Model);
    - the ray tracer and Quadriga are arguments: the delays and coefficients of the paths they return.  The traced antenna arrays have a
      single antenna (238-245), so the coefficients of a path depend on the time only and are broadcast to all antennas;
    - bandwidths are positive, delays are not negative or, of traced paths, -1 if the path is invalid. *)
From Coq Require Import List Reals ZArith Bool Arith.
From Coquelicot Require Import Complex.
From Verif Require Import Base Cplx Chan_Model.
Import ListNotations.
Open Scope R_scope.

(** int() of a number that is not negative, and ceil() *)
Definition int_of (x : R) : nat := Z.to_nat (Int_part x).
Definition ceil_of (x : R) : Z := (- Int_part (- x))%Z.

(** ** Ray tracing *)
Record traced_path := Traced { tau : R; coefficient : nat -> C }.
(** [rate_ratio] is the sampling rate of the receiver divided by that of the transmitter (135) *)
Record traced := mkTraced { t_gain : R; t_bandwidth : R; t_rx : nat; rate_ratio : R; t_tx : nat; t_paths : list traced_path }.
Definition largest (l : list R) : R := match l with [] => 0 | y :: r => fold_left Rmax r y end.
(** 105, 161 *)
Definition max_delay (c : traced) : R := largest (map tau (t_paths c)).
(** 123, 177 *)
Definition delay_of (c : traced) (p : traced_path) : nat := int_of (tau p * t_bandwidth c).
(** 84-130; numpy arrays cannot have a negative number of taps *)
Definition traced_state (c : traced) (num_samples max_num_taps : nat) : result csi :=
  let top := Z.min (Z.of_nat max_num_taps) (ceil_of (max_delay c * t_bandwidth c)) in
  if (1 + top <? 0)%Z then Raise ValueError
  else
    let taps := Z.to_nat (1 + top) in
    do a <- fold_left (fun acc p =>
        do a <- acc;
        if Rlt_dec (tau p) 0 then Ok a
        else if Nat.leb max_num_taps (delay_of c p) then Ok a
        else if Nat.leb taps (delay_of c p) then Raise IndexError
        else Ok (fun i k => if Nat.eqb k (delay_of c p) then (a i k + coefficient p i)%C else a i k)) (t_paths c) (Ok (fun _ _ => RtoC 0));
    Ok (impulse_csi (t_rx c) (t_tx c) num_samples taps (fun _ _ i k => (a i k * RtoC (sqrt (t_gain c)))%C)).
(** 133-188; einsum broadcasts the coefficient to all streams of the signal (178-180); a section of the output that is too short cannot
    be added to, unless it has a single sample, which is not modelled: C130_traced_propagation shows that no section is too short *)
Definition traced_propagate (c : traced) (s : blk) : result blk :=
  let n := samples s in
  let from := int_of (INR (offset s) * rate_ratio c) in
  match t_paths c with
  | [] => Ok (Blk (t_rx c) (int_of (INR n * rate_ratio c)) from (fun _ _ => RtoC 0))
  | _ =>
      let len := (Z.of_nat n + ceil_of (max_delay c * t_bandwidth c))%Z in
      if (len <? 0)%Z then Raise ValueError
      else
        do y <- fold_left (fun acc p =>
            do a <- acc;
            if Req_EM_T (tau p) (-1) then Ok a
            else
              let d := delay_of c p in
              if (Z.of_nat (d + n) <=? len)%Z then
                Ok (fun j => if (Nat.leb d j && Nat.ltb j (d + n))%bool then (a j + csum (fun t => coefficient p (j - d)%nat * x s t (j - d)%nat)%C (streams s))%C else a j)
              else Raise ValueError) (t_paths c) (Ok (fun _ => RtoC 0));
        Ok (Blk (t_rx c) (Z.to_nat len) from (fun _ j => (y j * RtoC (sqrt (t_gain c)))%C))
  end.
(** 71-81; over [times] moments *)
Definition traced_energy_scale (c : traced) (times : nat) : R := Cmod (fold_right (fun p z => (csum (coefficient p) times + z)%C) (RtoC 0) (t_paths c)).

(** ** Quadriga (channel/quadriga/quadriga.py) *)
Record quad_path := QuadPath { q_delay : R; q_coefficients : nat -> nat -> C }.
(** The coefficients have [q_rx] rows and [q_tx] columns (interface.py:150-151); [q_back] is the number of receiving antennas of the transmitter; unless [q_shared], each pair of antennas has its own delay *)
Record quad := mkQuad { q_gain : R; q_bandwidth : R; q_rx : nat; q_tx : nat; q_back : nat; q_shared : bool; q_paths : list quad_path }.
(** 99, 132: item() of the delays of a path *)
Definition single_delay (c : quad) : bool := q_shared c || Nat.eqb (q_rx c * q_tx c) 1.
(** 87, 99, 116, 132 *)
Definition quad_delay (c : quad) (p : quad_path) : nat := in_samples (q_delay p) (q_bandwidth c).
Definition quad_max (c : quad) : nat := in_samples (largest (map q_delay (q_paths c))) (q_bandwidth c).
(** 86-108; coefficients with a single row are broadcast to all rows of the output *)
Definition quad_propagate (c : quad) (s : blk) : result blk :=
  match q_paths c with
  | [] => Raise ValueError
  | _ =>
      if negb (single_delay c) then Raise ValueError
      else if negb (Nat.eqb (streams s) (q_tx c)) then Raise ValueError
      else if negb (Nat.eqb (q_rx c) (q_back c) || Nat.eqb (q_rx c) 1) then Raise ValueError
      else
        let row r := if Nat.eqb (q_rx c) 1 then 0%nat else r in
        let y := fold_left (fun acc p => fun r j =>
          let d := quad_delay c p in
          if (Nat.leb d j && Nat.ltb j (d + samples s))%bool then (acc r j + csum (fun t => q_coefficients p (row r) t * x s t (j - d)%nat)%C (q_tx c))%C else acc r j) (q_paths c) (fun _ _ => RtoC 0) in
        Ok (Blk (q_back c) (samples s + quad_max c) (offset s) (fun r j => (y r j * RtoC (sqrt (q_gain c)))%C))
  end.
(** 110-136; numpy aligns the rows of the coefficients with the transmitting antennas and their columns with the samples (133) *)
Definition quad_state (c : quad) (num_samples max_num_taps : nat) : result csi :=
  match q_paths c with
  | [] => Raise ValueError
  | _ =>
      let taps := Nat.min max_num_taps (quad_max c + 1) in
      if negb (single_delay c) then Raise ValueError
      else
        do a <- fold_left (fun acc p =>
            do a <- acc;
            if Nat.leb taps (quad_delay c p) then Raise IndexError
            else if negb ((Nat.eqb (q_rx c) 1 || Nat.eqb (q_rx c) (q_tx c)) && (Nat.eqb (q_tx c) 1 || Nat.eqb (q_tx c) num_samples)) then Raise ValueError
            else Ok (fun t i k => if Nat.eqb k (quad_delay c p) then (a t i k + q_coefficients p (if Nat.eqb (q_rx c) 1 then 0%nat else t) (if Nat.eqb (q_tx c) 1 then 0%nat else i))%C else a t i k))
          (q_paths c) (Ok (fun _ _ _ => RtoC 0));
        Ok (impulse_csi (q_rx c) (q_tx c) num_samples taps (fun _ t i k => (a t i k * RtoC (sqrt (q_gain c)))%C))
  end.
(** 83-84; float() keeps the real part of the sum *)
Definition quad_energy_scale (c : quad) : R :=
  q_gain c * fst (fold_right (fun p z => (csum (fun r => csum (fun t => q_coefficients p r t) (q_tx c)) (q_rx c) + z)%C) (RtoC 0) (q_paths c)).

(** ** Propagation over a sample: the blocks of a signal, here one (channel/channel.py:352-379) *)
Definition over (scale : R) (rx tx : nat) (propagate : blk -> result blk) (s : blk) : result blk :=
  if Rle_dec scale 0 then Ok (Blk rx 0 0 (fun _ _ => RtoC 0)) else if negb (Nat.eqb (streams s) tx) then Raise ValueError else propagate s.
Definition traced_over (c : traced) (times : nat) : blk -> result blk := over (traced_energy_scale c times) (t_rx c) (t_tx c) (traced_propagate c).
Definition quad_over (c : quad) : blk -> result blk := over (quad_energy_scale c) (q_rx c) (q_tx c) (quad_propagate c).
