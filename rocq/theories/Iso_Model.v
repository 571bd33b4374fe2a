(** Leakage between a device's transmitting and receiving antennas and mutual coupling of its antennas.
    Models hermespy/simulation/isolation/{isolation,perfect,specific,selective}.py and simulation/coupling/{coupling,perfect,impedance}.py.
    Signals are lists of blocks as in Chan_Model, with a delay in seconds; sampling rates, carrier frequencies and noise powers, which are
    handed on, are not modelled.  numpy's infinities and nans are [None]: neither sums nor products become finite again. *)
From Coq Require Import List Reals ZArith Bool Arith.
From Coquelicot Require Import Complex.
From Verif Require Import Base Cplx Chan_Model.
Import ListNotations.
Open Scope R_scope.

Record sig := Sig { s_streams : nat; s_delay : R; s_blocks : list blk }.
(** The antennas of a device: transmitting, receiving and all of them *)
Record device := Device { n_tx : nat; n_rx : nat; n_antennas : nat }.

(** ** Numbers that may not be finite *)
Definition num := option C.
Definition times (a b : num) : num := match a, b with Some p, Some q => Some (p * q)%C | _, _ => None end.
Definition plus (a b : num) : num := match a, b with Some p, Some q => Some (p + q)%C | _, _ => None end.
Fixpoint esum (f : nat -> num) (n : nat) : num := match n with O => Some (RtoC 0) | S m => plus (esum f m) (f m) end.
(** Matrices of shape rows x columns *)
Record mat := Mat { rows : nat; cols : nat; e : nat -> nat -> num }.
(** [a @ b]: numpy raises for shapes that do not match *)
Definition matmul (a b : mat) : result mat :=
  if Nat.eqb (cols a) (rows b) then Ok (Mat (rows a) (cols b) (fun i j => esum (fun k => times (e a i k) (e b k j)) (cols a))) else Raise ValueError.
(** np.power(x, -0.5) and np.power(x, 0.5) of real numbers: infinite at zero, not a number below *)
Definition power_neg_half (r : R) : num := if Rlt_dec 0 r then Some (RtoC (/ sqrt r)) else None.
Definition power_half (r : R) : num := if Rle_dec 0 r then Some (RtoC (sqrt r)) else None.
(** Blocks of possibly infinite samples *)
Record xblk := XBlk { x_streams : nat; x_samples : nat; x_offset : nat; x_at : nat -> nat -> num }.
Record xsig := XSig { x_num_streams : nat; x_delay : R; x_blocks : list xblk }.
Definition finite_block (b : blk) : mat := Mat (streams b) (samples b) (fun i j => Some (x b i j)).
(** A matrix applied to the streams of a block *)
Definition apply (m : mat) (b : blk) : result xblk :=
  do p <- matmul m (finite_block b);
  Ok (XBlk (rows p) (cols p) (offset b) (e p)).

(** ** Isolation (isolation.py) *)
(** _assert_leaking_signal (64-92); FloatingError is a RuntimeError *)
Definition assert_leaking (d : option device) (s : option sig) : result (device * sig) :=
  match d with
  | None => Raise RuntimeError
  | Some d => match s with
              | None => Raise ValueError
              | Some s => if Nat.eqb (n_tx d) (s_streams s) then Ok (d, s) else Raise ValueError
              end
  end.
(** PerfectIsolation._leak (perfect.py:23-36) *)
Definition perfect_leak (d : option device) (s : option sig) : result xsig :=
  do p <- assert_leaking d s;
  Ok (XSig (n_rx (fst p)) 0 [XBlk (n_rx (fst p)) 0 0 (fun _ _ => None)]).

(** SpecificIsolation: the isolation last set and the factors computed from it (specific.py:35-36) *)
Record rmat := RMat { r_rows : nat; r_cols : nat; r_e : nat -> nat -> R }.
Record specific := Specific { isolation : option rmat; factors : option mat }.
Inductive isolation_value := NoIsolation | Scalar (r : R) | Matrix (m : rmat) | OtherDimensions.
Definition new_specific : specific := Specific None None.
(** isolation.setter (67-91) *)
Definition set_isolation (d : option device) (v : isolation_value) (st : specific) : result specific :=
  let store m := Ok (Specific (Some m) (Some (Mat (r_rows m) (r_cols m) (fun i j => power_neg_half (r_e m i j))))) in
  match v with
  | NoIsolation => Ok (Specific None (factors st))
  | Scalar r =>
      match d with
      | Some dev => if Nat.eqb (n_antennas dev) 1 then store (RMat 1 1 (fun _ _ => r)) else Raise ValueError
      | None => store (RMat 1 1 (fun _ _ => r))
      end
  | Matrix m => store m
  | OtherDimensions => Raise ValueError
  end.
(** _leak (100-126).  Signal.Create (signal_model.py:898-910) turns a single block into a dense signal: its offset becomes part of the delay *)
Definition create (rate : R) (ns : nat) (delay : R) (bs : list xblk) : xsig :=
  match bs with
  | [b] => XSig ns (delay + INR (x_offset b) / rate) [XBlk (x_streams b) (x_samples b) 0 (x_at b)]
  | _ => XSig ns delay bs
  end.
Definition specific_leak (rate : R) (d : option device) (st : specific) (s : option sig) : result xsig :=
  do p <- assert_leaking d s;
  let '(dev, sg) := p in
  match factors st with
  | None => Raise RuntimeError
  | Some m =>
      if negb (Nat.eqb (rows m) (n_rx dev)) then Raise RuntimeError
      else if negb (Nat.eqb (cols m) (n_tx dev)) then Raise RuntimeError
      else do bs <- mapM (apply m) (s_blocks sg); Ok (create rate (rows m) (s_delay sg) bs)
  end.

(** SelectiveLeakage (selective.py:38-63, 122-142).  [response]: rows, columns, taps and entries; None for other dimensions.
    The samples of the signal are those of its dense form.  scipy's convolve needs at least one sample and one tap here; otherwise the outcome
    depends on broadcasting rules and is reported as a ValueError (a simplification) *)
Record response := Response { l_rows : nat; l_cols : nat; l_taps : nat; l_e : nat -> nat -> nat -> C }.
Definition new_selective (r : option response) : result response := match r with Some x => Ok x | None => Raise ValueError end.
Definition dense_samples (bs : list blk) : nat := fold_right Nat.max 0%nat (map (fun b => offset b + samples b)%nat bs).
Definition dense_at (bs : list blk) (i j : nat) : C :=
  fold_left (fun acc b => if (Nat.leb (offset b) j && Nat.ltb j (offset b + samples b))%bool then x b i (j - offset b)%nat else acc) bs (RtoC 0).
Definition convolve_at (taps samples : nat) (h y : nat -> C) (j : nat) : C :=
  csum (fun k => if (Nat.leb k j && Nat.ltb (j - k) samples)%bool then (h k * y (j - k)%nat)%C else RtoC 0) taps.
Definition selective_leak (d : option device) (r : response) (s : option sig) : result blk :=
  do p <- assert_leaking d s;
  let bs := s_blocks (snd p) in
  let ns := s_streams (snd p) in
  let n := dense_samples bs in
  if (Nat.eqb n 0 || Nat.eqb (l_taps r) 0)%bool then Raise ValueError
  else if (Nat.ltb 0 (l_rows r) && Nat.ltb (l_cols r) ns)%bool then Raise IndexError
  else Ok (Blk (l_rows r) (l_taps r + n - 1) 0
             (fun m j => fold_left (fun acc t => (acc + convolve_at (l_taps r) n (l_e r m t) (dense_at bs t) j)%C) (seq 0 ns) (RtoC 0))).

(** ** Coupling (coupling.py) *)
(** transmit (25-52) and receive (67-93): [f] models one block *)
Definition couple (antennas : nat) (f : blk -> result xblk) (s : sig) : result (list xblk) :=
  if Nat.eqb antennas (s_streams s) then mapM f (s_blocks s) else Raise ValueError.
(** PerfectCoupling (perfect.py:32-37) *)
Definition perfect_coupling (b : blk) : result xblk := Ok (XBlk (streams b) (samples b) (offset b) (fun i j => Some (x b i j))).

(** ImpedanceCoupling (impedance.py): correlations are real arrays, impedances complex ones; None stands for a property that was not set *)
Record cmat := CMat { c_rows : nat; c_cols : nat; c_e : nat -> nat -> C }.
Record impedance := Impedance { transmit_correlation : option rmat; receive_correlation : option rmat; transmit_impedance : option cmat;
  receive_impedance : option cmat; matching_impedance : option cmat }.
Definition default_impedance : impedance := Impedance None None None None None.
(** The setters (82-166): two dimensional and square arrays are accepted.  An array is its shape and its entries *)
Record array := Array { shape : list nat; entry : nat -> nat -> R }.
Definition set_correlation (v : option array) : result (option rmat) :=
  match v with
  | None => Ok None
  | Some a => match shape a with
              | [r; c] => if Nat.eqb r c then Ok (Some (RMat r c (entry a))) else Raise ValueError
              | _ => Raise ValueError
              end
  end.
Definition eye (n i j : nat) : R := if Nat.eqb i j then 1 else 0.
Definition or_eye (n : nat) (m : option rmat) : rmat := match m with Some m => m | None => RMat n n (eye n) end.
Definition or_ceye (n : nat) (m : option cmat) : cmat := match m with Some m => m | None => CMat n n (fun i j => RtoC (eye n i j)) end.
Definition Re_ (z : C) : R := fst z.
(** _transmit (169-186).  SignalBlock checks that the samples fill [num_streams] rows *)
Definition transmit_coupling (c : impedance) (n : nat) : result mat :=
  let z := or_ceye n (transmit_impedance c) in
  let r := or_eye n (transmit_correlation c) in
  matmul (Mat (c_rows z) (c_cols z) (fun i j => power_neg_half (Re_ (c_e z i j)))) (Mat (r_rows r) (r_cols r) (fun i j => power_half (r_e r i j))).
Definition impedance_transmit (c : impedance) (n : nat) (b : blk) : result xblk :=
  do m <- transmit_coupling c n; apply m b.
(** _receive (189-216); sums of arrays of different shapes, which numpy may broadcast, are reported as errors.  [inv] is np.linalg.inv; the receive impedance enters with its first entry only (208) *)
Section Inverse.
Variable inv : cmat -> result cmat.
Definition finite (m : cmat) : mat := Mat (c_rows m) (c_cols m) (fun i j => Some (c_e m i j)).
Definition receive_coupling (c : impedance) (n : nat) : result mat :=
  let z := or_ceye n (receive_impedance c) in
  let r := or_eye n (receive_correlation c) in
  let m := or_ceye n (matching_impedance c) in
  if (Nat.eqb (c_rows z) 0 || Nat.eqb (c_cols z) 0)%bool then Raise IndexError
  else if negb (Nat.eqb (c_rows m) (r_rows r) && Nat.eqb (c_cols m) (r_cols r))%bool then Raise ValueError
  else
    do i <- inv (CMat (c_rows m) (c_cols m) (fun p q => (c_e m p q + RtoC (r_e r p q))%C));
    do a <- matmul (Mat (c_rows m) (c_cols m) (fun p q => times (Some (RtoC (2 * Re_ (c_e z 0 0)))) (power_half (Re_ (c_e m p q))))) (finite i);
    matmul a (Mat (r_rows r) (r_cols r) (fun p q => power_half (r_e r p q))).
Definition impedance_receive (c : impedance) (n : nat) (b : blk) : result xblk :=
  do m <- receive_coupling c n; apply m b.
End Inverse.
