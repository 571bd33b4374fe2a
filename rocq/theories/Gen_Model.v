(** Sources of bits and generators of frames: hermespy/modem/bits_source.py (cited by line as src), hermespy/modem/frame_generator/frame_generator.py (fg) and scapy.py (sca).
    Simplifications: numbers of bits are not negative; files do not change while they are open; of a packet only what the library is asked for is known: its length in bytes and, for a packet of its first
    layer's type with default fields, the header scapy renders before a given payload. *)
From Coq Require Import List Arith Bool.
From Verif Require Import Base.
Import ListNotations.
Local Open Scope nat_scope.

(** * Bytes *)
(** np.unpackbits: eight bits per byte, the most significant first *)
Definition byte_bits (b : nat) : bits := map (fun k => Nat.testbit b (7 - k)) (seq 0 8).
Definition unpackbits (l : list nat) : bits := concat (map byte_bits l).
(** np.packbits: the last byte is filled up with zeros *)
Definition byte_of (l : bits) : nat := fold_left (fun n (b : bool) => 2 * n + (if b then 1 else 0)) (l ++ repeat false (8 - length l)) 0.
Definition packbits (l : bits) : list nat := map byte_of (blocks_of (ceil_div (length l) 8) 8 l).

(** * Sources *)
(** What a frame generator asks: a number of bits; the answer and the source afterwards *)
Definition source (S : Type) := S -> nat -> result bits * S.
(** StreamBitsSource: the bytes of the file and the number of those read, src 81-89 *)
Record stream := mkStream { contents : list nat; position : nat }.
Definition open_stream (file : list nat) : stream := mkStream file 0.
(** src 95-105 *)
Definition stream_bits : source stream := fun s num_bits =>
  let num_bytes := ceil_div num_bits 8 in
  if 0 <? num_bytes * 8 - num_bits then (Raise RuntimeError, s)
  else let read := firstn num_bytes (skipn (position s) (contents s)) in
       (Ok (unpackbits read), mkStream (contents s) (position s + length read)).
(** src 108-114: only the path is stored, and the file is opened again *)
Definition reload (s : stream) : stream := open_stream (contents s).
(** RandomBitsSource, src 62-63: always as many bits as asked for; [draw] is the generator, which knows how often it was asked *)
Definition random_bits (draw : nat -> nat -> bool) : source nat := fun calls num_bits => (Ok (map (draw calls) (seq 0 num_bits)), S calls).

(** * Generators *)
(** fg 55-63 *)
Definition stub_pack {S} (src : source S) (s : S) (num_bits : nat) : result bits * S := src s num_bits.
Definition stub_unpack (frame : bits) : result bits := Ok frame.
(** sca 30-37: the length of the whole packet given, in bytes, and the header of a new packet of the type of its first layer *)
Record scapy := mkScapy { packet_length : nat; new_header : list nat -> list nat }.
Definition packet_num_bits (g : scapy) : nat := packet_length g * 8.
(** sca 39-59 *)
Definition scapy_pack {S} (g : scapy) (src : source S) (s : S) (num_bits : nat) : result bits * S :=
  if num_bits <? packet_num_bits g then (Raise ValueError, s)
  else match src s (num_bits - packet_num_bits g) with
       | (Raise e, s') => (Raise e, s')
       | (Ok b, s') => let payload := packbits b in (Ok (unpackbits (new_header g payload ++ payload)), s')
       end.
(** sca 61-66 *)
Definition scapy_unpack (g : scapy) (frame : bits) : result bits :=
  if length frame <? packet_num_bits g then Raise ValueError else Ok (skipn (packet_num_bits g) frame).

(** A history of requests to a source *)
Fixpoint ask {S} (src : source S) (s : S) (requests : list nat) : list (result bits) * S :=
  match requests with
  | [] => ([], s)
  | n :: r => let (a, s') := src s n in let (l, s'') := ask src s' r in (a :: l, s'')
  end.
