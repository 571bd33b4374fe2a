(** Samples played and recorded by audio devices: hermespy/hardware_loop/audio/device.py.
    Simplifications: samples are real and complex numbers with exact arithmetic; a signal has as many streams as the device has transmitting ports; playing and recording themselves (sounddevice) are not modelled;
    products with 0.25 and 0.5 and with the sampling rate are exact. *)
From Coq Require Import List Reals Bool Arith ZArith.
From Coquelicot Require Import Complex.
From Verif Require Import Base Cplx.
Import ListNotations.
Local Open Scope nat_scope.

(** [x[k:] = 0] *)
Definition cut_from (k : nat) (x : list C) : list C := firstn k x ++ repeat (RtoC 0) (length x - k).
(** int(0.25 * n) + 1, lines 302 and 355 *)
Definition lift (n : nat) : nat := n / 4 + 1.
(** 300-305: the spectrum is moved to positive frequencies, and the rest is cut off *)
Definition pressure_spectrum (s : list C) : list C := cut_from (length s / 2) (roll_right (lift (length s)) (fft Backward s)).
(** 306-308 *)
Definition pressure (s : list C) : list R := map fst (ifft Backward (pressure_spectrum s)).
(** 297, 309-313: silence for the receive delay, in samples; scipy.fft refuses signals without samples *)
Definition delay_samples (max_receive_delay rate : R) : nat := Z.to_nat (Int_part (max_receive_delay * rate)).
Definition played (delay : nat) (s : list C) : result (list R) := if length s =? 0 then Raise ValueError else Ok (pressure s ++ repeat 0%R delay).
Definition transmission (delay : nat) (streams : list (list C)) : result (list (list R)) := mapM (played delay) streams.
(** numpy's reshape of a matrix, given row by row, to [rows] rows *)
Definition reshape {A} (rows : nat) (m : list (list A)) : result (list (list A)) :=
  let l := concat m in
  if rows =? 0 then Raise ValueError else if length l mod rows =? 0 then Ok (blocks_of rows (length l / rows) l) else Raise ValueError.
(** 319-323: the signal returned has the rows of the receiving ports *)
Definition upload (delay receive_ports : nat) (streams : list (list C)) : result (list (list R) * list (list R)) :=
  do t <- transmission delay streams; do u <- reshape receive_ports t; Ok (t, u).
(** 353-356: one recorded channel; the samples are stored transposed (315, 350) *)
Definition received (r : list R) : result (list C) :=
  if length r =? 0 then Raise ValueError
  else let transform := cut_from (length r / 2) (fft Backward (map RtoC r)) in
       let transform := roll_left (lift (length r)) transform in
       Ok (ifft Backward (map (Cmult (RtoC 2)) transform)).
Definition download (recorded : list (list R)) : result (list (list C)) := mapM received recorded.
