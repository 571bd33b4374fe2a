(** Transmission and reception frames of communication modems.
    Models hermespy/modem/modem.py: _transmit (797-888), the frame loop of __synchronize
    (1085-1146), __map (747-763) and __unmap (1167-1190), the concatenation of bits and
    symbols of frames (203-229, 418-470) and of hermespy/modem/waveform.py the default
    synchronization (67-99).  Columns of a signal (one sample of every stream) are elements
    of an arbitrary type [A] with a zero column. *)
From Coq Require Import List Arith Bool ZArith QArith Qround.
From Verif Require Import Base.
Import ListNotations.
Open Scope nat_scope.

Section Frames.
Context {A : Type}.
Variable zero : A.

(** A block of samples: offset and columns *)
Definition block : Type := nat * list A.

(** A transmitted frame: its index, its bits and the blocks of the signal it contributes *)
Record tx_frame := mkTx { x_index : nat; x_bits : bits; x_blocks : list block }.

(** generate_bits of a source drawing from the stream [src] at position [pos]
    (bits_source.py:60-66; StreamBitsSource reads consecutive bytes of a file) *)
Definition generate_bits (src : nat -> bool) (pos n : nat) : bits := map src (seq pos n).

(** The loop of _transmit (modem.py:829-884), frame generator stub.  [modulated] is the
    number of samples of [frame_signal], [encoded] are the blocks of the signal after stream
    coding, as functions of the frame's bits (error correction, mapping, precoding and
    modulation do not look at anything else). *)
Fixpoint transmit_frames (src : nat -> bool) (num_bits : nat) (modulated : bits -> nat)
    (encoded : bits -> list block) (count n pos offset : nat) : list tx_frame :=
  match count with
  | O => []
  | S c =>
      let frame_bits := generate_bits src pos num_bits in
      let blocks := map (fun b : block => (fst b + offset, snd b)) (encoded frame_bits) in
      mkTx n frame_bits blocks
      :: transmit_frames src num_bits modulated encoded c (S n) (pos + num_bits)
           (offset + modulated frame_bits)
  end.

(** Number of frames (modem.py:800-805); [int] truncates towards zero. *)
Definition num_mimo_frames (duration frame_duration : Q) : Z :=
  let d := if Qle_bool duration 0 then frame_duration else duration in Qfloor (d / frame_duration)%Q.

(** The blocks of the transmitted signal (modem.py:864-870, 886) *)
Definition signal_blocks (frames : list tx_frame) : list block := concat (map x_blocks frames).

(** CommunicationTransmission.bits / CommunicationReception.bits, encoded_bits
    (modem.py:203-221, 418-460): an uninitialised array, filled frame by frame.  [junk] is
    the content of uninitialised memory. *)
Definition write_at (l : bits) (at_ : nat) (x : bits) : bits :=
  firstn at_ l ++ x ++ skipn (at_ + length x) l.
Definition concat_bits (junk : bits) (frames : list bits) : bits :=
  let n := fold_left (fun a f => a + length f)%nat frames 0%nat in
  fst (fold_left (fun '(buf, at_) f => (write_at buf at_ f, (at_ + length f)%nat)) frames
         (firstn n (junk ++ repeat false n), 0%nat)).

(** Synchronization.synchronize (waveform.py:67-99): [list(range(0, n * spf, spf))] *)
Definition default_sync (spf : nat) (columns : list A) : list nat :=
  map (fun k => k * spf)%nat (seq 0 (length columns / spf)).

(** [block[:, start:stop]] zero-padded to the length of a frame (modem.py:1122-1133) *)
Definition cut_frame (spf start : nat) (columns : list A) : list A :=
  let f := slice start (start + spf) columns in f ++ repeat zero (spf - length f).

(** The frame loop of __synchronize (modem.py:1107-1146): start indices and samples *)
Definition synchronize (sync : list A -> list nat) (spf : nat) (blocks : list block)
  : list (nat * list A) :=
  concat (map (fun b : block =>
    map (fun start => ((fst b + start)%nat, cut_frame spf start (snd b))) (sync (snd b))) blocks).
End Frames.

(** *** Symbols of streams (modem/symbols.py) *)
Section Mapping.
Context {S : Type}.

(** Symbols as a list of streams, a stream as a list of blocks of symbols.
    Symbols.append_stream (symbols.py:188-223) *)
Definition num_blocks (s : list (list (list S))) : nat :=
  match s with [] => 0 | b :: _ => length b end.
Definition num_symbols (s : list (list (list S))) : nat :=
  match s with (b :: _) :: _ => length b | _ => 0 end.
Definition append_stream (s n : list (list (list S))) : result (list (list (list S))) :=
  if (num_symbols s <? 1) && (length s <=? 1) then Ok n
  else if negb (num_symbols s =? num_symbols n) then Raise ValueError
  else if negb (num_blocks s =? num_blocks n) then Raise ValueError
  else Ok (s ++ n).
(** Symbols.append_symbols (symbols.py:225-257); numpy.append raises if the sizes of the
    blocks differ *)
Definition append_symbols (s n : list (list (list S))) : result (list (list (list S))) :=
  if (num_symbols s <? 1) && (length s <=? 1) then Ok n
  else if negb (length s =? length n) then Raise ValueError
  else if negb (num_symbols s =? num_symbols n) then Raise ValueError
  else Ok (map (fun '(a, b) => a ++ b) (combine s n)).
(** CommunicationTransmission.symbols etc. (modem.py:223-229, 462-480) *)
Definition concat_symbols (frames : list (list (list (list S)))) : result (list (list (list S))) :=
  fold_left (fun r f => do s <- r; append_symbols s f) frames (Ok []).

(** TransmittingModemBase.__map (modem.py:747-763): [bits.reshape((num_streams, -1))]
    raises if the length is not a multiple.  [map_bits] is waveform.map, one stream. *)
Definition map_streams (map_bits : bits -> list (list S)) (num_streams : nat) (b : bits)
  : result (list (list (list S))) :=
  if (num_streams =? 0)%nat || negb (length b mod num_streams =? 0)%nat then Raise ValueError
  else fold_left (fun r f => do s <- r; append_stream s [map_bits f])
         (blocks_of num_streams (length b / num_streams) b) (Ok []).
(** ReceivingModemBase.__unmap (modem.py:1167-1190): [per_frame] is raw_bits_per_frame;
    assigning a vector of another length than the slice raises (a vector of length one
    would be broadcast: [unmap_bits] returning one bit is not modelled beyond that). *)
Definition unmap_streams (unmap_bits : list (list S) -> bits) (per_frame : nat)
    (s : list (list (list S))) : result bits :=
  fold_left (fun r f => do acc <- r;
    let x := unmap_bits f in
    if (length x =? per_frame)%nat then Ok (acc ++ x)
    else if (length x =? 1)%nat then Ok (acc ++ repeat (hd false x) per_frame)
    else Raise ValueError) s (Ok []).
End Mapping.

(** *** Time stamps (modem.py:882, 1256) *)
Definition tx_timestamp (n : nat) (frame_duration : Q) : Q := (inject_Z (Z.of_nat n) * frame_duration)%Q.
Definition rx_timestamp (start : nat) (sampling_rate : Q) : Q := (inject_Z (Z.of_nat start) * sampling_rate)%Q.
