(** What a simulated device emits for its operators' transmissions and what it hands to its receivers.
    Models hermespy/simulation/simulated_device.py (_simulate_output 1562-1589, generate_output 1591-1709, process_from_realization 1832-1968),
    simulation/antennas.py (SimulatedAntenna 86-137, SimulatedAntennaArray 276-322), core/signal_model.py (DenseSignal.superimpose 1446-1534) and
    the default chain of converters and ideal mixers (simulated_device.py:1243-1278, rf/chain.py:536-611).
    Signals are those of Signal_Model with complex samples; operators' transmissions are dense and have no delay.  The device has its default radio
    frequency chain, perfect coupling and no stream coding.  Noise, callbacks, frequencies and the resampling of signals are not modelled. *)
From Coq Require Import List Reals ZArith Bool Arith.
From Coquelicot Require Import Complex.
From Verif Require Import Base Cplx Signal_Model.
Import ListNotations.

Notation cdense := (dense C).
Notation csignal := (signal C).
Definition is_zero (z : C) : bool := if Req_EM_T (fst z) 0 then (if Req_EM_T (snd z) 0 then true else false) else false.
Definition no_samples (d : cdense) : bool := ((d_ns d =? 0) || (length (d_cols d) =? 0))%bool.

(** ** Superposition of the operators' transmissions (1654-1664) *)
(** The selected ports address rows of both signals (signal_model.py:1523-1531) *)
Definition add_selected (idx : list nat) (old new : list C) : list C :=
  map (fun i => let z := nth i old (RtoC 0) in if existsb (Nat.eqb i) idx then (z + nth i new (RtoC 0))%C else z) (seq 0 (length old)).
(** DenseSignal.superimpose of signals without a difference in delay onto a signal that is not empty *)
Definition superimpose (self added : cdense) (ports : option (list nat)) : result cdense :=
  match ports with
  | None => do s <- dn_superimpose C (RtoC 0) Cplus self (Dense added) 0;
            match s with Dense d => Ok d | Sparse _ => Raise TypeError end
  | Some idx =>
      let ns := Nat.max (d_ns self) (d_ns added) in
      let n := Nat.max (length (d_cols self)) (length (d_cols added)) in
      if existsb (fun i => (d_ns added <=? i) || (ns <=? i))%bool idx then Raise IndexError
      else
        let base := map (fun c => c ++ repeat (RtoC 0) (ns - d_ns self)) (d_cols self) ++ repeat (repeat (RtoC 0) ns) (n - length (d_cols self)) in
        Ok (mkD ns (map2 (add_selected idx) (firstn (length (d_cols added)) base) (d_cols added) ++ skipn (length (d_cols added)) base))
  end.
(** 1510-1514: the sum is written into the own samples if the added signal fits into them *)
Definition fits (self added : cdense) : bool := ((d_ns added <=? d_ns self) && (length (d_cols added) <=? length (d_cols self)))%bool.

(** The signal superimposed so far is the initial empty signal, the signal object of the k-th transmission itself (1458-1459) or a new object *)
Inductive mixture := Initial | Own (k : nat) | Fresh (d : cdense).
Definition current (ports : nat) (ts : list (option cdense)) (m : mixture) : cdense :=
  match m with
  | Initial => mkD ports []
  | Own k => match nth_error ts k with Some (Some d) => d | _ => mkD ports [] end
  | Fresh d => d
  end.
Fixpoint replace {X} (k : nat) (v : X) (l : list X) : list X :=
  match l, k with
  | [], _ => []
  | _ :: t, O => v :: t
  | a :: t, S j => a :: replace j v t
  end.
(** One iteration; the transmissions after it are part of the result *)
Definition mix_step (ports : nat) (k : nat) (sel : option (list nat)) (st : list (option cdense) * mixture) : result (list (option cdense) * mixture) :=
  let '(ts, m) := st in
  match nth_error ts k with
  | Some (Some t) =>
      let c := current ports ts m in
      if no_samples c then Ok (ts, Own k)
      else do v <- superimpose c t sel;
           Ok (match m with
               | Own j => if fits c t then (replace j (Some v) ts, m) else (ts, Fresh v)
               | _ => (ts, Fresh v)
               end)
  | _ => Ok st
  end.
Fixpoint mix_from (ports k : nat) (sels : list (option (list nat))) (st : list (option cdense) * mixture) : result (list (option cdense) * mixture) :=
  match sels with
  | [] => Ok st
  | sel :: r => do st' <- mix_step ports k sel st; mix_from ports (S k) r st'
  end.
Definition mix (ports : nat) (ts : list (option cdense)) (sels : list (option (list nat))) : result (cdense * list (option cdense)) :=
  do st <- mix_from ports 0 sels (ts, Initial); Ok (current ports (fst st) (snd st), fst st).

(** ** The transmitting hardware *)
(** Default chain: the p-th converter takes the p-th stream, further streams reach none (rf/chain.py:554-559), missing ones cannot be assigned (651-653) *)
Definition rf_pass (n : nat) (d : cdense) : result cdense :=
  if d_ns d <? n then Raise ValueError else Ok (mkD n (map (firstn n) (d_cols d))).
(** The transmitting and receiving antennas with their weights, the power and the leakage of isolation.leak (1580) *)
Record device := Device { tx_weights : list C; rx_weights : list C; tx_power : R; leak : cdense -> result cdense }.
Definition weigh (w : list C) (d : cdense) : cdense := mkD (d_ns d) (map (map2 Cmult w) (d_cols d)).
Definition scale (a : C) (d : cdense) : cdense := mkD (d_ns d) (map (map (Cmult a)) (d_cols d)).
(** _simulate_output (1562-1589): the signals emerging from the antennas and leaking to the receiver *)
Definition simulate_output (dv : device) (d : cdense) : result (cdense * cdense) :=
  do r <- rf_pass (length (tx_weights dv)) d;
  do l <- leak dv r;
  Ok (weigh (tx_weights dv) r, l).
(** The output: emerging and leaking signals with their delays (1684-1702) *)
Record output := Output { emerging : list (R * cdense); leaking : list (R * cdense) }.
Definition finish (dv : device) (delay : R) (l : list (cdense * cdense)) : output :=
  Output (map (fun p => (0 + delay, scale (RtoC (sqrt (tx_power dv))) (fst p))%R) l) (map (fun p => (0 + delay, snd p)%R) l).
(** generate_output; also returned are the transmissions after the call *)
Definition generate_output (dv : device) (separate : bool) (delay : R) (ts : list (option cdense)) (sels : list (option (list nat)))
  : result (output * list (option cdense)) :=
  if negb (length ts =? length sels) then Raise ValueError
  else if separate then
    do l <- mapM (fun t => match t with Some d => simulate_output dv d | None => Raise AttributeError end) ts;
    Ok (finish dv delay l, ts)
  else
    do m <- mix (length (tx_weights dv)) ts sels;
    do p <- simulate_output dv (fst m);
    Ok (finish dv delay [p], snd m).

(** ** Reception (1899-1951) *)
(** Impinging signals with their delays relative to the trigger in samples *)
Definition sp_add : list (block C) -> csignal -> Z -> option (list nat) -> result (list (block C) * csignal) := sp_superimpose C (RtoC 0) Cplus is_zero.
Fixpoint mix_impinging (s : list (block C)) (l : list (csignal * Z)) : result (list (block C)) :=
  match l with
  | [] => Ok s
  | (x, d) :: r => do p <- sp_add s x d None; mix_impinging (fst p) r
  end.
Definition mixed_signal (n : nat) (l : list (csignal * Z)) : result (list (block C)) :=
  mix_impinging (from_dense C (RtoC 0) Cplus is_zero n [] 0) l.
(** Signals of fewer than two blocks become dense (1909-1910).  Rows of a sparse signal cannot be assigned a signal (antennas.py:320,
    signal_model.py:2189-2190, 2214-2215).  [leaked]: the leaking signal, at the trigger as well (1941-1950) *)
Definition receive (dv : device) (l : list (csignal * Z)) (leaked : option cdense) : result csignal :=
  let n := length (rx_weights dv) in
  do s <- mixed_signal n l;
  if length s <? 2 then
    do d <- to_dense C (RtoC 0) s;
    if negb (d_ns d =? n) then Raise ValueError
    else match leaked with
         | None => Ok (Dense (weigh (rx_weights dv) d))
         | Some y => dn_superimpose C (RtoC 0) Cplus (weigh (rx_weights dv) d) (Dense y) 0
         end
  else if negb (sp_ns s =? n) then Raise ValueError
  else if n =? 0 then match leaked with
                      | None => Ok (Sparse s)
                      | Some y => do p <- sp_add s (Dense y) 0 None; Ok (Sparse (fst p))
                      end
  else Raise TypeError.
