(** Model of the transformations of orthogonal waveforms and of DFT precoding:
    hermespy/modem/waveforms/orthogonal/{ofdm,otfs,ocdm}.py and
    hermespy/modem/precoding/dft.py.

    Complex numbers are exact.  [n] is the number of subcarriers, [os] the oversampling
    factor.  Grids are lists of words; each word of a grid of symbols has [n] entries,
    each word of samples has [n * os]. *)
From Coq Require Import Reals List Arith.
From Coquelicot Require Import Complex.
From Verif Require Import Base Cplx.
Import ListNotations.

(** [padding_start_idx], ofdm.py:109-111, 150-152, 166-168 *)
Definition pad_start (n os : nat) : nat := (os * n) / 2 - n / 2.
(** [dc_index], ofdm.py:119, 146: [int(0.5 * n * os)] *)
Definition dc_index (n os : nat) : nat := (n * os) / 2.
(** [grid[dc:] = np.roll(grid[dc:], 1)] and with -1 *)
Definition roll_tail_right {B} (k : nat) (x : list B) : list B := firstn k x ++ roll_right 1 (skipn k x).
Definition roll_tail_left {B} (k : nat) (x : list B) : list B := firstn k x ++ roll_left 1 (skipn k x).

(** One word of OFDMWaveform._forward_transformation, ofdm.py:98-130 *)
Definition ofdm_forward_word (dc : bool) (n os : nat) (x : list C) : list C :=
  let scaled := map (fun c => (c / RtoC (sqrt (INR n)))%C) x in
  let padded := repeat (RtoC 0) (pad_start n os) ++ scaled
                ++ repeat (RtoC 0) (os * n - n - pad_start n os) in
  let padded := if dc then roll_tail_right (dc_index n os) padded else padded in
  ifft Forward (ifftshift padded).
(** One word of OFDMWaveform._backward_transformation, ofdm.py:133-161 (with
    normalize at its default; ideal channel estimation passes False, see Ice_Model) *)
Definition ofdm_backward_word (dc : bool) (n os : nat) (y : list C) : list C :=
  let g := fftshift (fft Backward y) in
  let g := if dc then roll_tail_left (dc_index n os) g else g in
  let g := slice (pad_start n os) (n + pad_start n os) g in
  map (fun c => (c * RtoC (/ sqrt (INR n) / INR os))%C) g.
Definition ofdm_forward dc n os (g : list (list C)) := map (ofdm_forward_word dc n os) g.
Definition ofdm_backward dc n os (g : list (list C)) := map (ofdm_backward_word dc n os) g.

(** numpy: [fftshift(fftfreq(m))]: -(m//2)/m, ..., ((m-1)//2)/m *)
Definition shifted_freqs (m : nat) : list R :=
  tab m (fun i => ((INR i - INR (m / 2)) / INR m)%R).
(** OFDMWaveform._correct_sample_offset, ofdm.py:163-177, one word *)
Definition ofdm_correct_word (dc : bool) (n os off : nat) (x : list C) : list C :=
  let freqs := slice (pad_start n os) (pad_start n os + n) (shifted_freqs (os * n)) in
  let freqs := if dc then roll_tail_left (length x / 2) freqs else freqs in
  map (fun p => (fst p * cis (2 * PI * snd p * INR off))%C) (combine x freqs).
Definition ofdm_correct dc n os off (g : list (list C)) := map (ofdm_correct_word dc n os off) g.

(** OTFSWaveform, otfs.py:25-54.  The last normalisation divides by the square root of an
    empty product, which is 1, since the grid handed over by the framework is a matrix. *)
Definition otfs_forward dc n os (g : list (list C)) : list (list C) :=
  ofdm_forward dc n os (fft_cols Ortho n (map (ifft Ortho) g)).
Definition otfs_backward dc n os (g : list (list C)) : list (list C) :=
  ifft_cols Ortho n (map (fft Ortho) (ofdm_backward dc n os g)).

(** OCDMWaveform.__DFnT, ocdm.py:24-47, entry (m, k) *)
Definition dfnt (n os m k : nat) : C :=
  let corr := if (n mod 2 =? 0)%nat then 0%R else (1 / 2)%R in
  (RtoC (/ sqrt (INR n))
   * cis (PI * ((INR m + corr - INR k / INR os) * (INR m + corr - INR k / INR os) / INR n - 1 / 4)))%C.
(** _forward_transformation 50-53: [grid @ DFnT] *)
Definition ocdm_forward_word (n os : nat) (x : list C) : list C :=
  tab (n * os) (fun k => csum (fun m => at0 x m * dfnt n os m k)%C n).
(** _backward_transformation 56-65: [samples @ DFnT.T.conj() / os] *)
Definition ocdm_backward_word (n os : nat) (y : list C) : list C :=
  tab n (fun m => (csum (fun k => at0 y k * conj (dfnt n os m k)) (n * os) / RtoC (INR os))%C).
Definition ocdm_forward n os (g : list (list C)) := map (ocdm_forward_word n os) g.
Definition ocdm_backward n os (g : list (list C)) := map (ocdm_backward_word n os) g.

(** DFT precoding, dft.py:59-69: transforms along the blocks of each stream; a stream is
    a matrix of blocks with [width] symbols each. *)
Definition dft_encode (m : norm) (width : nat) (streams : list (list (list C))) :=
  map (fft_cols m width) streams.
Definition dft_decode (m : norm) (width : nat) (streams : list (list (list C))) :=
  map (ifft_cols m width) streams.
