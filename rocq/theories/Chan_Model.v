(** Channel samples, their propagation of signals and their channel state information, with exact complex arithmetic.
    Models hermespy/channel/channel.py (ChannelSample.propagate 306-379), channel/ideal.py (27-121), channel/delay/delay.py (79-172),
    channel/fading/fading.py (MultipathFadingSample 289-406, gains 721-733), core/channel.py (ChannelStateInformation 146-376, 493-539),
    core/signal_model.py (Signal.Create 898-910, SparseSignal.to_dense 1734-1740).
    numpy arrays are records of their dimensions and a function giving their entries; entries outside the dimensions have no meaning.
    The sparse storage of states, carrier frequencies and noise powers are not modelled. *)
From Coq Require Import List Reals ZArith Bool Arith.
From Coquelicot Require Import Complex.
From Verif Require Import Base Cplx.
Import ListNotations.
Open Scope R_scope.

(** SignalBlock (395-441): [streams] by [samples] complex numbers, at an offset within the signal *)
Record blk := Blk { streams : nat; samples : nat; offset : nat; x : nat -> nat -> C }.

(** Python's round and np.rint: half way cases go to the even neighbour *)
Definition rint (r : R) : Z :=
  let f := Int_part r in
  let d := r - IZR f in
  if Rlt_dec d (1 / 2) then f else if Rlt_dec (1 / 2) d then (f + 1)%Z else if Z.even f then f else (f + 1)%Z.
(** Delays in samples *)
Definition in_samples (delay bandwidth : R) : nat := Z.to_nat (rint (delay * bandwidth)).

(** ** Channel state information (core/channel.py) *)
Inductive state_format := Impulse | Frequency.
Record csi := Csi { format : state_format; nrx : nat; ntx : nat; nsamples : nat; ntaps : nat; h : nat -> nat -> nat -> nat -> C; bins : nat }.
(** set_state (174-203) for an impulse response: the number of frequency bins defaults to the number of taps *)
Definition impulse_csi (r t s k : nat) (e : nat -> nat -> nat -> nat -> C) : csi := Csi Impulse r t s k e k.
(** to_impulse_response (205-219) *)
Definition to_impulse (c : csi) : csi :=
  match format c with
  | Impulse => c
  | Frequency => Csi Impulse (nrx c) (ntx c) (nsamples c) (ntaps c) (fun r t s => ifft_at Backward (h c r t s) (ntaps c)) (bins c)
  end.
(** to_frequency_selectivity (221-248): the first [num_bins] samples are kept, taps are cut off or filled up with zeros by the transform *)
Definition to_frequency (c : csi) (num_bins : option nat) : csi :=
  match format c with
  | Frequency => c
  | Impulse =>
      let n := match num_bins with Some n => n | None => bins c end in
      Csi Frequency (nrx c) (ntx c) (Nat.min n (nsamples c)) n
        (fun r t s => fft_at Backward (fun k => if Nat.ltb k (ntaps c) then h c r t s k else RtoC 0) n) n
  end.
(** reciprocal (530-539) *)
Definition reciprocal (c : csi) : csi := Csi (format c) (ntx c) (nrx c) (nsamples c) (ntaps c) (fun r t => h c t r) (bins c).
(** propagate (493-528): for all taps and pairs of antennas the weighted stream is added to a section of the output.  The weights of a
    state with a single sample are repeated, a state of fewer samples than the signal cannot be multiplied with it *)
Definition add_at (acc : nat -> nat -> C) (row from len : nat) (v : nat -> C) (r j : nat) : C :=
  if (Nat.eqb r row && Nat.leb from j && Nat.ltb j (from + len))%bool then (acc r j + v (j - from)%nat)%C else acc r j.
Definition csi_propagate (c : csi) (s : blk) : result blk :=
  let c := to_impulse c in
  let n := samples s in
  if Nat.eqb (n + ntaps c) 0 then Raise ValueError
  else
    let visits := flat_map (fun d => flat_map (fun t => map (fun r => (d, t, r)) (seq 0 (nrx c))) (seq 0 (ntx c))) (seq 0 (ntaps c)) in
    do y <- fold_left (fun acc v => let '(d, t, r) := v in
        do a <- acc;
        if Nat.leb (streams s) t then Raise IndexError
        else if Nat.leb n (nsamples c) then Ok (add_at a r d n (fun i => (h c r t i d * x s t i)%C))
        else if Nat.eqb (nsamples c) 1 then Ok (add_at a r d n (fun i => (h c r t 0%nat d * x s t i)%C))
        else Raise ValueError) visits (Ok (fun _ _ => RtoC 0));
    Ok (Blk (nrx c) (n + ntaps c - 1) 0 y).

(** linear (299-376): coordinates of the entries of the flattened state, as built from np.repeat, np.tile and reshape; entries with
    the same coordinates are summed up by the sparse array *)
Definition flat (c : csi) (f : nat) : C :=
  h c (f / (ntaps c * nsamples c * ntx c)) ((f / (ntaps c * nsamples c)) mod ntx c) ((f / ntaps c) mod nsamples c) (f mod ntaps c).
Definition coordinates (c : csi) (f : nat) : nat * nat * nat * nat :=
  match format c with
  | Impulse =>
      let p := (ntaps c * nsamples c)%nat in
      let k := (nrx c * ntaps c * nsamples c)%nat in
      (f / (ntx c * p), (f / k + f mod k * ntx c) / k, (f mod p) mod ntaps c + (f mod p) / ntaps c, (f mod p) / ntaps c)%nat
  | Frequency =>
      let p := (nsamples c * ntaps c)%nat in
      (f / (ntx c * p), (f mod (ntx c * p)) / p, f mod p, f mod p)%nat
  end.
Definition same_coordinates (a b : nat * nat * nat * nat) : bool :=
  let '(a1, a2, a3, a4) := a in let '(b1, b2, b3, b4) := b in (Nat.eqb a1 b1 && Nat.eqb a2 b2 && Nat.eqb a3 b3 && Nat.eqb a4 b4)%bool.
Definition linear_rows (c : csi) : nat :=
  match format c with Impulse => (nsamples c + ntaps c - 1)%nat | Frequency => (nsamples c * ntaps c)%nat end.
Definition linear_columns (c : csi) : nat :=
  match format c with Impulse => nsamples c | Frequency => (nsamples c * ntaps c)%nat end.
Definition linear (c : csi) (r t o i : nat) : C :=
  csum (fun f => if same_coordinates (coordinates c f) (r, t, o, i) then flat c f else RtoC 0) (nrx c * ntx c * nsamples c * ntaps c).

(** ** Ideal channels (channel/ideal.py) *)
(** _propagate (85-121).  The second component is the propagated signal block after the call: scaling the selected streams in place (115)
    writes to it if they are a view of it (100), which np.repeat (88), np.sum (92), np.empty (96) and np.append (102) are not *)
Definition ideal_propagate (gain : R) (nr nt : nat) (s : blk) : blk * blk :=
  let out v := Blk nr (samples s) (offset s) (fun r j => (v r j * RtoC (sqrt gain))%C) in
  if Nat.eqb nt 1 then (out (fun _ j => x s 0%nat j), s)
  else if Nat.eqb nr 1 then (out (fun _ j => csum (fun t => x s t j) (streams s)), s)
  else if Nat.eqb nr 0 then (out (fun _ _ => RtoC 0), s)
  else if Nat.ltb nt nr then (out (fun r j => if Nat.ltb r nt then x s r j else RtoC 0), s)
  else (out (x s), Blk (streams s) (samples s) (offset s) (fun r j => if Nat.ltb r nr then (x s r j * RtoC (sqrt gain))%C else x s r j)).
(** state (51-82) *)
Definition ideal_response (nr nt r t : nat) : C :=
  if (Nat.eqb nr 1 || Nat.eqb nt 1)%bool then RtoC 1 else if Nat.eqb r t then RtoC 1 else RtoC 0.
Definition ideal_state (gain : R) (nr nt num_samples max_taps : nat) : csi :=
  impulse_csi nr nt num_samples 1 (fun r t _ _ => (ideal_response nr nt r t * RtoC (sqrt gain))%C).

(** ** Delay channels (channel/delay/delay.py): [g] is the path gain (102-122), [response] the spatial response (79-100) *)
Record delay_sample := Delay { d_rx : nat; d_tx : nat; d_delay : R; d_bandwidth : R; d_gain : R; d_response : nat -> nat -> C }.
(** _propagate (125-145) *)
Definition delay_propagate (c : delay_sample) (s : blk) : blk :=
  let d := in_samples (d_delay c) (d_bandwidth c) in
  Blk (d_rx c) (d + samples s) (offset s)
    (fun r j => if Nat.ltb j d then RtoC 0 else csum (fun t => RtoC (d_gain c) * d_response c r t * x s t (j - d)%nat)%C (streams s)).
(** state (148-172) *)
Definition delay_state (c : delay_sample) (num_samples max_taps : nat) : csi :=
  let d := in_samples (d_delay c) (d_bandwidth c) in
  impulse_csi (d_rx c) (d_tx c) num_samples (Nat.min (1 + d) max_taps)
    (fun r t _ k => if (Nat.ltb d max_taps && Nat.eqb k d)%bool then (RtoC (d_gain c) * d_response c r t)%C else RtoC 0).
(** Reciprocal samples (209-212) keep the delay, the response is evaluated in the other direction *)
Definition delay_reciprocal (c : delay_sample) (back : nat -> nat -> C) (bandwidth : R) : delay_sample :=
  Delay (d_tx c) (d_rx c) (d_delay c) bandwidth (d_gain c) back.

(** ** Multipath fading channels (channel/fading/fading.py) *)
Record path := Path { p_delay : R; power : R; los_gain : R; nlos_gain : R; los_angle : R; los_phase : R; nlos : list (R * R) (** angles and phases *) }.
Record fading_sample := Fading { f_rx : nat; f_tx : nat; (** receiving and transmitting antennas *)
  a_rx : nat; a_tx : nat; (** all antennas of both devices: the dimensions of the spatial response (476-478) *)
  f_bandwidth : R; f_gain : R; los_doppler : R; nlos_doppler : R; paths : list path; f_response : nat -> nat -> C }.
(** __path_impulse_generator (293-343) *)
Definition impulse (c : fading_sample) (p : path) (i : nat) : C :=
  let t := INR i / f_bandwidth c in
  let n := length (nlos p) in
  let nl k := let '(angle, phase) := nth k (nlos p) (0, 0) in
              cis (nlos_doppler c * t * cos ((2 * PI * (1 + INR k) + angle) / INR n) + phase) in
  ((RtoC (nlos_gain p) * csum nl n + RtoC (los_gain p) * cis (los_doppler c * t * cos (los_angle p) + los_phase p)) * RtoC (sqrt (f_gain c * power p)))%C.
(** Delay of a path (297), maximal delay (215, 372) *)
Definition path_delay (c : fading_sample) (p : path) : nat := in_samples (p_delay p) (f_bandwidth c).
Definition max_delay (c : fading_sample) : R := fold_right Rmax 0 (map p_delay (paths c)).
(** _propagate (371-406); the sliced response (376-378) has the smaller ones of both dimensions *)
Definition fading_propagate (c : fading_sample) (s : blk) : result blk :=
  let n := samples s in
  let total := (n + in_samples (max_delay c) (f_bandwidth c))%nat in
  let rr := Nat.min (f_rx c) (a_rx c) in
  let rt := Nat.min (f_tx c) (a_tx c) in
  if (Nat.ltb 0 total && Nat.ltb 0 rr)%bool then
    if (Nat.eqb (streams s) rt || Nat.eqb (streams s) 1)%bool then
      let row t := if Nat.eqb (streams s) 1 then 0%nat else t in
      let y := fold_left (fun acc p => fun t j =>
        if (Nat.leb (path_delay c p) j && Nat.ltb j (path_delay c p + n))%bool
        then (acc t j + x s (row t) (j - path_delay c p)%nat * impulse c p (j - path_delay c p)%nat)%C else acc t j) (paths c) (fun _ _ => RtoC 0) in
      Ok (Blk rr total (offset s) (fun r j => csum (fun t => f_response c r t * y t j)%C rt))
    else Raise ValueError
  else Ok (Blk rr total (offset s) (fun _ _ => RtoC 0)).
(** state (345-369): a path whose delay equals the number of taps is added outside of the array *)
Definition fading_state (c : fading_sample) (num_samples max_taps : nat) : result csi :=
  let taps := Nat.min (1 + in_samples (max_delay c) (f_bandwidth c)) max_taps in
  do siso <- fold_left (fun acc p =>
      do a <- acc;
      let d := path_delay c p in
      if Nat.ltb taps d then Ok a
      else if Nat.eqb d taps then Raise IndexError
      else Ok (fun i k => if Nat.eqb k d then (a i k + impulse c p i)%C else a i k)) (paths c) (Ok (fun _ _ => RtoC 0));
  Ok (impulse_csi (a_rx c) (a_tx c) num_samples taps (fun r t i k => (f_response c r t * siso i k)%C)).
(** _reciprocal_sample (517-538), between devices with exchanged roles *)
Definition fading_reciprocal (c : fading_sample) (nr nt : nat) (bandwidth : R) : fading_sample :=
  Fading nr nt (a_tx c) (a_rx c) bandwidth (f_gain c) (los_doppler c) (nlos_doppler c) (paths c) (fun r t => f_response c t r).
(** Gains of the specular and of the diffuse component of a path (721-733), from its rice factor; None is an infinite one *)
Definition rice_gains (factor : option R) (num_sinusoids : nat) : R * R :=
  match factor with
  | None => (1, 0)
  | Some k => (sqrt (k / (1 + k)), sqrt (1 / ((1 + k) * INR num_sinusoids)))
  end.

(** ** Propagation of signals (channel/channel.py 306-379) *)
(** Signals: one block of samples with a delay (DenseSignal), or several ones (SparseSignal).  Delays are counted in samples *)
Inductive signal := Dense (delay : R) (b : blk) | Sparse (delay : R) (l : list blk).
Definition blocks (s : signal) : list blk := match s with Dense _ b => [b] | Sparse _ l => l end.
Definition sig_delay (s : signal) : R := match s with Dense d _ => d | Sparse d _ => d end.
Definition num_streams (s : signal) : nat := match blocks s with [] => 0%nat | b :: _ => streams b end.
(** Signal.Create (898-910): the offset of a single block is turned into a delay *)
Definition create (l : list blk) (delay : R) : signal :=
  match l with
  | [b] => Dense (delay + INR (offset b)) (Blk (streams b) (samples b) 0 (x b))
  | _ => Sparse delay l
  end.
Definition channel_propagate (scale : R) (nr nt : nat) (prop : blk -> result blk) (s : signal) : result signal :=
  if Rle_dec scale 0 then Ok (Dense (sig_delay s) (Blk nr 0 0 (fun _ _ => RtoC 0)))
  else if negb (Nat.eqb (num_streams s) nt) then Raise ValueError
  else do l <- mapM prop (blocks s); Ok (create l (sig_delay s)).
(** SparseSignal.to_dense (1734-1740): blocks are written one after the other; a block reaching beyond the last one's end does not fit *)
Definition last_end (l : list blk) : nat := match rev l with [] => 0%nat | b :: _ => (offset b + samples b)%nat end.
Definition to_dense (l : list blk) : result blk :=
  let st := match l with [] => 0%nat | b :: _ => streams b end in
  do y <- fold_left (fun acc b => do a <- acc;
      if Nat.leb (offset b + samples b) (last_end l)
      then Ok (fun r j => if (Nat.leb (offset b) j && Nat.ltb j (offset b + samples b))%bool then x b r (j - offset b)%nat else a r j)
      else Raise ValueError) l (Ok (fun _ _ => RtoC 0));
  Ok (Blk st (last_end l) 0 y).
