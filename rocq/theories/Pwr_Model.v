(** Model of hermespy/core/evaluators.py: power, peak-to-average power ratio and extraction of
    signals, and of the powers and energies of signals (core/signal_model.py).

    Simplifications for the whole file
    - numbers are exact; [option R] stands for a float, [None] for NaN;
    - signals are those of Signal_Model over complex samples; all blocks of a sparse signal
      have the same number of streams (SparseSignal, signal_model.py:1598-1663);
    - an event of a target is one run of its transmit or receive routine; the hooks are those
      of Core_Model (C44), of which only the registration at creation is used here;
    - plots, titles and the parameters of the confidence intervals are not modelled. *)
From Coq Require Import List Reals Bool Arith.
From Coquelicot Require Import Complex.
From Verif Require Import Base Signal_Model.
Import ListNotations.

Notation csignal := (signal C).
Notation cblock := (block C).
Notation cdense := (dense C).

(** * Energy and power *)
Definition entry (c : list C) (s : nat) : C := nth s c (RtoC 0).
Definition magnitude2 (z : C) : R := (fst z * fst z + snd z * snd z)%R.
Definition add_up (l : list R) : R := fold_right Rplus 0%R l.

(** Division of floats whose numerator vanishes with the denominator: 0 / 0 is NaN. *)
Definition ratio (a b : R) : option R := if Req_EM_T b 0 then None else Some (a / b)%R.
Definition nan_plus (a b : option R) : option R :=
  match a, b with Some x, Some y => Some (x + y)%R | _, _ => None end.
(** [np.sum] and [np.mean] over a list. *)
Definition nan_sum (l : list (option R)) : option R := fold_right nan_plus (Some 0%R) l.
Definition nan_mean (l : list (option R)) : option R :=
  match nan_sum l with Some x => ratio x (INR (length l)) | None => None end.

(** signal_model.py:494-501: squared euclidean norm of each row. *)
Definition block_energy (b : cblock) : list R :=
  map (fun s => let norm := sqrt (add_up (map (fun c => magnitude2 (entry c s)) (k_cols b))) in (norm * norm)%R)
      (seq 0 (k_ns b)).
(** 485-492. *)
Definition block_power (b : cblock) : list (option R) :=
  map (fun e => ratio e (INR (length (k_cols b)))) (block_energy b).

(** [energy]: dense signals are blocks (494-501), sparse signals sum over blocks AND streams
    (1715-1718), which yields one number. *)
Definition energy (x : csignal) : list R :=
  match x with
  | Dense d => block_energy (mkB 0 (d_ns d) (d_cols d))
  | Sparse s => [add_up (map (fun b => add_up (block_energy b)) s)]
  end.
(** [power]: 485-492 and, for sparse signals, the mean over the blocks (1720-1723); the mean of
    no blocks is a single NaN. *)
Definition power (x : csignal) : list (option R) :=
  match x with
  | Dense d => block_power (mkB 0 (d_ns d) (d_cols d))
  | Sparse [] => [None]
  | Sparse (b :: s) => map (fun i => nan_mean (map (fun b' => nth i (block_power b') None) (b :: s))) (seq 0 (k_ns b))
  end.

(** * Power evaluators and signal extractors *)

Inductive direction := Transmitting | Receiving.
Definition same_direction (a b : direction) : bool :=
  match a, b with Transmitting, Transmitting | Receiving, Receiving => true | _, _ => false end.

(** What an evaluator is attached to: [Transmitter], [Receiver], both or neither. *)
Record target := mkTarget { transmits : bool; receives : bool }.
Inductive kind := ReceivePower | TransmitPower | Extractor.

(** evaluators.py:169 ([add_receive_callback]), 235 ([add_transmit_callback]), 635-640: what the
    new evaluator listens to; a target without the method has no such attribute. *)
Definition listens (t : target) (k : kind) : result direction :=
  match k with
  | ReceivePower => if receives t then Ok Receiving else Raise AttributeError
  | TransmitPower => if transmits t then Ok Transmitting else Raise AttributeError
  | Extractor => if transmits t then Ok Transmitting
                 else if receives t then Ok Receiving
                 else Raise TypeError
  end.

Inductive op :=
  | Create (k : kind)                                  (* Evaluator(target) *)
  | Run (d : direction) (x : csignal) (notify : bool). (* target.transmit / receive *)

(** The evaluators of one target: what they listen to and the signal they remember
    (170, 236, 632). *)
Record evaluator := mkE { e_kind : kind; e_dir : direction; e_signal : option csignal }.
(** 173-176, 239-242, 642-645. *)
Definition hear (d : direction) (x : csignal) (e : evaluator) : evaluator :=
  if same_direction (e_dir e) d then mkE (e_kind e) (e_dir e) (Some x) else e.
(** device.py:696-704 and 974-982: callbacks are notified on request. *)
Definition step (t : target) (es : list evaluator) (o : op) : list evaluator :=
  match o with
  | Create k => match listens t k with
                | Ok d => es ++ [mkE k d None]
                | Raise _ => es
                end
  | Run d x notify => if notify then map (hear d x) es else es
  end.
Definition run (t : target) (ops : list op) : list evaluator := fold_left (step t) ops [].

(** 179-186, 245-251, 648-657: the signal an evaluation is based on. *)
Definition fetched (e : evaluator) : result csignal :=
  match e_signal e with
  | None => Raise RuntimeError
  | Some x => Ok x
  end.
(** 185, 251, 111-112. *)
Definition evaluate_power (e : evaluator) : result (list (option R)) := do x <- fetched e; Ok (power x).
(** 79-80. *)
Definition power_scalar (p : list (option R)) : option R := nan_sum p.

(** * Peak-to-average power ratio *)

(** antennas.py:33-43. *)
Inductive mode := TX | RX | DUPLEX.
(** device.py:196-263 [DeviceOutput], 350-375 [DeviceInput]. *)
Inductive event := Output (mixed : csignal) | Input (impinging : list csignal).
(** evaluators.py:362-372; the members [__output] and [__input] are only declared, so that they
    do not exist ([None]) before the first callback. *)
Record papr := mkP { p_direction : mode; p_output : option csignal; p_input : option (list csignal) }.

(** 398-417. *)
Definition papr_create (m : mode) : result papr :=
  match m with
  | DUPLEX => Raise ValueError
  | _ => Ok (mkP m None None)
  end.
(** 411-427: a single hook is registered. *)
Definition papr_hear (p : papr) (e : event) : papr :=
  match p_direction p, e with
  | TX, Output x => mkP (p_direction p) (Some x) (p_input p)
  | RX, Input l => mkP (p_direction p) (p_output p) (Some l)
  | _, _ => p
  end.
Definition papr_run (p : papr) (es : list event) : papr := fold_left papr_hear es p.

(** 442-458. *)
Definition papr_signal (p : papr) : result csignal :=
  match p_direction p with
  | TX => match p_output p with
          | None => Raise AttributeError
          | Some x => Ok x
          end
  | RX => match p_input p with
          | None => Raise AttributeError
          | Some [] => Raise IndexError
          | Some (x :: _) => Ok x
          end
  | DUPLEX => Raise RuntimeError
  end.

(** 461; a dense signal is its own dense form (signal_model.py:1537). *)
Definition dense_form (x : csignal) : result cdense :=
  match x with
  | Dense d => Ok d
  | Sparse s => to_dense C (RtoC 0) s
  end.
(** 462: the rows of the matrix of instantaneous powers. *)
Definition instantaneous (d : cdense) : list (list R) :=
  map (fun s => map (fun c => magnitude2 (entry c s)) (d_cols d)) (seq 0 (d_ns d)).
(** 440-464. *)
Definition papr_evaluate (p : papr) : result (list (list R)) :=
  do x <- papr_signal p; do d <- dense_form x; Ok (instantaneous d).

(** 322-324 for one row; [np.max] over no samples raises ValueError. *)
Definition row_papr (row : list R) : result (option R) :=
  match row with
  | [] => Raise ValueError
  | x :: r => Ok (ratio (fold_left Rmax r x) (add_up row / INR (length row)))
  end.
(** 320-326 and 283: mean over the streams. *)
Definition papr_artifact (rows : list (list R)) : result (option R) :=
  do l <- mapM row_papr rows; Ok (nan_mean l).
Definition papr_of (x : csignal) : result (option R) :=
  do d <- dense_form x; papr_artifact (instantaneous d).

(** * Results of signal extraction *)

Notation coords := (list nat).
Definition coords_dec : forall a b : coords, {a = b} + {a <> b} := list_eq_dec Nat.eq_dec.

(** [np.ndindex]: all coordinates of a grid in row-major order. *)
Fixpoint ndindex (dims : list nat) : list coords :=
  match dims with
  | [] => [[]]
  | d :: r => flat_map (fun i => map (cons i) (ndindex r)) (seq 0 d)
  end.
(** Negative coordinates are not modelled. *)
Definition in_grid (dims : list nat) (c : coords) : bool := existsb (fun c' => if coords_dec c c' then true else false) (ndindex dims).

(** 538-557: an empty list per grid point. *)
Record stash := mkStash { s_dims : list nat; s_at : coords -> list csignal }.
Definition stash_new (dims : list nat) : stash := mkStash dims (fun _ => []).
(** 560-567; too few coordinates select an array, which has no [append]. *)
Definition add_artifact (s : stash) (c : coords) (x : csignal) : result stash :=
  if length c <? length (s_dims s) then Raise AttributeError
  else if in_grid (s_dims s) c then
    Ok (mkStash (s_dims s) (fun c' => if coords_dec c' c then s_at s c' ++ [x] else s_at s c'))
  else Raise IndexError.
Definition stash_add (s : stash) (o : coords * csignal) : stash :=
  match add_artifact s (fst o) (snd o) with Ok s' => s' | Raise _ => s end.
Definition stash_run (dims : list nat) (ops : list (coords * csignal)) : stash := fold_left stash_add ops (stash_new dims).

(** 576-584. *)
Definition cells (s : stash) : list (list csignal) := map (s_at s) (ndindex (s_dims s)).
Definition max_signals (s : stash) : nat := list_max (map (@length csignal) (cells s)).
Definition max_samples (s : stash) : nat := list_max (map (fun x => num_samples x) (concat (cells s))).
Definition max_streams (s : stash) : nat := list_max (map (fun x => num_streams x) (concat (cells s))).

(** The array: its last three dimensions and its entries. *)
Record array := mkA { a_signals : nat; a_streams : nat; a_samples : nat; a_at : coords -> nat -> nat -> nat -> C }.
(** 586-590. *)
Definition zeros (s : stash) : array := mkA (max_signals s) (max_streams s) (max_samples s) (fun _ _ _ _ => RtoC 0).
(** 596-601: [sample_offset] is always zero.  A slice beyond the array is cut, after which the
    shapes differ.  A sparse signal is neither an array nor a sequence nor a number and cannot
    be assigned; the kind of exception depends on the version of NumPy. *)
Definition assign (a : array) (c : coords) (i : nat) (x : csignal) : result array :=
  match x with
  | Sparse _ => Raise TypeError
  | Dense d =>
      if negb (i <? a_signals a) then Raise IndexError
      else if (d_ns d <=? a_streams a) && (length (d_cols d) <=? a_samples a) then
        Ok (mkA (a_signals a) (a_streams a) (a_samples a)
              (fun c' i' s t =>
                 if coords_dec c' c then
                   if (i' =? i) && (s <? d_ns d) && (t <? length (d_cols d)) then entry (nth t (d_cols d) []) s
                   else a_at a c' i' s t
                 else a_at a c' i' s t))
      else Raise ValueError
  end.
Definition enumerate {X} (l : list X) : list (nat * X) := combine (seq 0 (length l)) l.
Fixpoint assign_all (a : array) (todo : list (coords * (nat * csignal))) : result array :=
  match todo with
  | [] => Ok a
  | (c, (i, x)) :: r => do a' <- assign a c i x; assign_all a' r
  end.
(** 574-603. *)
Definition to_array (s : stash) : result array :=
  assign_all (zeros s) (flat_map (fun c => map (pair c) (enumerate (s_at s c))) (ndindex (s_dims s))).
