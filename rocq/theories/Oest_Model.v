(** Ideal channel estimation of OFDM receivers and single stream zero forcing equalization.
    Models hermespy/simulation/modem/channel_estimation.py (84-131, 182-295), the slicing of frames in hermespy/modem/modem.py (1122-1134) and
    hermespy/modem/waveform.py (239-250).  The transmission itself is that of Grid_Model, Ofdm_Model and Chan_Model.
    Simplifications: exact complex arithmetic; arrays are lists or functions of their indices.  The frame has at least one word and the number of
    received symbols is that of the waveform.  Frames are equalized as a whole; picking the data symbols first (modem.py:1232-1238) selects
    the same entries from symbols and states. *)
From Coq Require Import List Reals Arith Bool.
From Coquelicot Require Import Complex.
From Verif Require Import Base Cplx Grid_Model Ofdm_Model Chan_Model.
Import ListNotations.

(** np.mean over the last axis (242) *)
Definition mean (l : list C) : C := (csum (at0 l) (length l) / RtoC (INR (length l)))%C.
(** Transforms of a given length cut off or fill up with zeros (ofdm.py:137-139) *)
Definition resized (n : nat) (l : list C) : list C := firstn n l ++ repeat (RtoC 0) (n - length l).
(** OFDMWaveform._backward_transformation without normalisation (ofdm.py:133-161), one word *)
Definition spectrum_word (dc : bool) (n os : nat) (taps : list C) : list C :=
  let g := fftshift (fft Backward (resized (n * os) taps)) in
  let g := if dc then roll_tail_left (dc_index n os) g else g in
  slice (pad_start n os) (n + pad_start n os) g.
(** __extract_channel (215-250); [states] lists the samples of the section for each tap.  Pilot sections return the state unchanged (waveform.py:863-867),
    with an axis less than the transposition (246) asks for. *)
Definition extract (dc : bool) (w : wave) (os : nat) (s : section) (states : list (list C)) : result (list (list C)) :=
  match s with
  | PilotSec _ => Raise ValueError
  | _ =>
      do picked <- mapM (pick_samples w os s) states;
      Ok (map (fun i => spectrum_word dc (w_sub w) os (map (fun rows => mean (nth i rows [])) picked)) (seq 0 (sec_words s)))
  end.
(** The loop of estimate_channel (275-290) *)
Fixpoint estimate_sections (dc : bool) (w : wave) (os : nat) (l : list section) (states : list (list C)) : result (list (list C)) :=
  match l with
  | [] => Ok []
  | s :: t =>
      do e <- if (sec_words s =? 0)%nat then Ok [] else extract dc w os s (map (firstn (sec_samples w os s)) states);
      do rest <- estimate_sections dc w os t (map (skipn (sec_samples w os s)) states);
      Ok (e ++ rest)
  end.
(** One pair of antennas (256-290) *)
Definition estimate_pair (dc : bool) (w : wave) (os : nat) (c : csi) (r t : nat) : result (list (list C)) :=
  let states := map (fun k => tab (nsamples c) (fun i => h c r t i k)) (seq 0 (ntaps c)) in
  let states := match w_pilot w with Some _ => map (skipn (slot w os)) states | None => states end in
  estimate_sections dc w os (w_struct w) states.
(** _csi (116-131) and estimate_channel (253-295).  [cached] is the state method of the channel sample most recently seen by the hook (79-82).  The delay of the
    frame is not used.  Assigning the states of a single receiving antenna repeats them for all streams (287). *)
Definition estimate (dc : bool) (w : wave) (os : nat) (cached : option (nat -> nat -> result csi)) (streams : nat) (delay : R)
  : result (list (list (list (list C)))) :=
  match cached with
  | None => Raise RuntimeError
  | Some state =>
      do c <- state (samples_per_frame w os) (samples_per_frame w os);
      let source r := if (Nat.min (nrx c) streams =? 1)%nat then 0%nat else r in
      if ((Nat.min (nrx c) streams =? streams) || (Nat.min (nrx c) streams =? 1))%nat%bool
      then mapM (fun r => mapM (fun t => estimate_pair dc w os c (source r) t) (seq 0 (ntx c))) (seq 0 streams)
      else Raise ValueError
  end.

(** The frame starting at sample [from] of stream [r] (modem.py:1122-1134): missing samples are zero *)
Definition frame_at (from len : nat) (y : blk) (r : nat) : list C :=
  tab len (fun m => if (from + m <? samples y)%nat then x y r (from + m)%nat else RtoC 0).
(** ZeroForcingChannelEqualization.equalize_channel of a single stream (waveform.py:242-244); [states] lists the transmitting antennas *)
Definition zero_forcing (symbols : list (list C)) (states : list (list (list C))) : list (list C) :=
  map (fun i => let row := nth i symbols [] in
       map (fun j => (at0 row j / fold_right Cplus (RtoC 0) (map (fun g => at2 g i j) states))%C) (seq 0 (length row))) (seq 0 (length symbols)).
