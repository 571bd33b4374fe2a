(** Finite sums of complex numbers, the complex exponential of an imaginary number and
    discrete Fourier sums.  Nothing in this file is specific to hermespy.  The complex
    numbers are those of Coquelicot: pairs of reals of the standard library. *)
From Coq Require Import Reals List Arith.
From Coquelicot Require Import Complex.
Import ListNotations.

(** [exp(j t)] *)
Definition cis (t : R) : C := (cos t, sin t).
Definition conj (z : C) : C := (fst z, (- snd z)%R).
(** [sum_{i < n} f i] *)
Fixpoint csum (f : nat -> C) (n : nat) : C :=
  match n with O => RtoC 0 | S k => (csum f k + f k)%C end.

(** numpy's normalisation modes *)
Inductive norm := Backward | Ortho | Forward.
(** Scale factors of numpy.fft.fft and numpy.fft.ifft for transform length [n] *)
Definition fft_scale (m : norm) (n : nat) : R :=
  match m with Backward => 1 | Ortho => / sqrt (INR n) | Forward => / INR n end.
Definition ifft_scale (m : norm) (n : nat) : R :=
  match m with Backward => / INR n | Ortho => / sqrt (INR n) | Forward => 1 end.
(** Phase [2 pi k n / m] *)
Definition turn (m k n : nat) : R := (2 * PI * INR k * INR n / INR m)%R.
Definition fft_at (m : norm) (x : nat -> C) (n k : nat) : C :=
  (RtoC (fft_scale m n) * csum (fun i => x i * cis (- turn n k i)) n)%C.
Definition ifft_at (m : norm) (x : nat -> C) (n k : nat) : C :=
  (RtoC (ifft_scale m n) * csum (fun i => x i * cis (turn n k i)) n)%C.
(** The list [f 0, ..., f (n-1)] *)
Definition tab {B} (n : nat) (f : nat -> B) : list B := map f (seq 0 n).
Definition at0 (x : list C) (i : nat) : C := nth i x (RtoC 0).
(** numpy.fft.fft / ifft of a vector *)
Definition fft (m : norm) (x : list C) : list C := tab (length x) (fft_at m (at0 x) (length x)).
Definition ifft (m : norm) (x : list C) : list C := tab (length x) (ifft_at m (at0 x) (length x)).
(** the same along the first axis of a matrix with [width] columns *)
Definition at2 (g : list (list C)) (i j : nat) : C := at0 (nth i g []) j.
Definition fft_cols (m : norm) (width : nat) (g : list (list C)) : list (list C) :=
  tab (length g) (fun k => tab width (fun j => fft_at m (fun i => at2 g i j) (length g) k)).
Definition ifft_cols (m : norm) (width : nat) (g : list (list C)) : list (list C) :=
  tab (length g) (fun k => tab width (fun j => ifft_at m (fun i => at2 g i j) (length g) k)).
(** numpy.roll of a vector by [s] places to the right / left *)
Definition roll_right {B} (s : nat) (x : list B) : list B :=
  skipn (length x - s) x ++ firstn (length x - s) x.
Definition roll_left {B} (s : nat) (x : list B) : list B := skipn s x ++ firstn s x.
(** numpy.fft.fftshift / ifftshift *)
Definition fftshift {B} (x : list B) : list B := roll_right (length x / 2) x.
Definition ifftshift {B} (x : list B) : list B := roll_left (length x / 2) x.
