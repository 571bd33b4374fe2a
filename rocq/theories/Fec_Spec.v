(** Specification vocabulary for forward error correction.  From [Fec_Model] it
    uses the record types and, in [session], the functions under test; it does
    not use any of the model's helper functions. *)
From Coq Require Import List Arith Bool.
From Verif Require Import Base Fec_Model.
Import ListNotations.


(** A pair of (possibly stateful) block functions with data block size [K] and
    code block size [L].  [enc h b] is the code word returned for block [b] by an
    object that encoded the blocks [h] before; likewise [dec]. *)

(** Outputs have the advertised size. *)
Definition sized (K L : nat) (enc dec : list bits -> bits -> bits) : Prop :=
  1 <= K /\ 1 <= L /\
  (forall h b, length b = K -> length (enc h b) = L) /\
  (forall h c, length c = L -> length (dec h c) = K).

(** Whatever blocks are encoded next, decoding the resulting code words in the
    same order returns the blocks. *)
Definition inverts (K : nat) (enc dec : list bits -> bits -> bits) (eh dh : list bits) : Prop :=
  forall bs cs : list bits,
    Forall (fun b => length b = K) bs ->
    length cs = length bs ->
    (forall i b, nth_error bs i = Some b -> nth_error cs i = Some (enc (eh ++ firstn i bs) b)) ->
    (forall i b c, nth_error bs i = Some b -> nth_error cs i = Some c ->
                   dec (dh ++ firstn i cs) c = b).

(** Number of repetitions (rows of [K] bits) of [recv] whose bit [j] differs from [sent]. *)
Definition errors_at (reps K : nat) (sent recv : bits) (j : nat) : nat :=
  length (filter (fun i => negb (Bool.eqb (nth (i * K + j) recv false) (nth j sent false))) (seq 0 reps)).

(** The code block size of every enabled encoder divides the data block size of
    the next enabled one. *)
Fixpoint chain_divides (prev : option nat) (l : list member) : Prop :=
  match l with
  | [] => True
  | m :: t => if m_enabled m
              then match prev with Some L => Nat.divide L (m_K m) | None => True end
                   /\ chain_divides (Some (m_L m)) t
              else chain_divides prev t
  end.

(** Consecutive enabled encoders: the code block size of the former divides both
    block sizes of the latter. *)
Fixpoint chain_nested (prev : option nat) (l : list member) : Prop :=
  match l with
  | [] => True
  | m :: t => if m_enabled m
              then match prev with
                   | Some L => Nat.divide L (m_K m) /\ Nat.divide L (m_L m)
                   | None => True end
                   /\ chain_nested (Some (m_L m)) t
              else chain_nested prev t
  end.

(** The length fits every stage without padding. *)
Fixpoint fits (l : list member) (n : nat) : Prop :=
  match l with
  | [] => True
  | m :: t => if m_enabled m then exists q, n = q * m_K m /\ fits t (q * m_L m) else fits t n
  end.

(** One manager object encodes and decodes frame after frame. *)
Fixpoint session (l : list member) (pad : bool) (rng : nat -> bool) (pos : nat) (frames : list bits)
  : result (list bits) :=
  match frames with
  | [] => Ok []
  | d :: t =>
      do '(l1, pos1, code) <- encode_chain pad rng l pos d;
      do '(l2, out) <- decode_chain l1 code;
      do outs <- session l2 pad rng pos1 t;
      Ok (out :: outs)
  end.

(** Feed consecutive blocks to a stateful method. *)
Fixpoint feed {S} (f : S -> bits -> S * bits) (s : S) (bs : list bits) : S * list bits :=
  match bs with
  | [] => (s, [])
  | b :: t => let (s1, o) := f s b in let (s2, os) := feed f s1 t in (s2, o :: os)
  end.


(** 3GPP TS 38.211, section 5.2.1: the length-31 Gold sequence
    c(n) = x1(n + 1600) + x2(n + 1600), x1(n + 31) = x1(n + 3) + x1(n),
    x2(n + 31) = x2(n + 3) + x2(n + 2) + x2(n + 1) + x2(n), x1 = 1, 0, 0, ...;
    [w1], [w2] are the windows x(n), ..., x(n + 30). *)
Fixpoint gold_3gpp (steps : nat) (w1 w2 : list bool) : list bool * list bool :=
  match steps with
  | 0 => (w1, w2)
  | S k => gold_3gpp k (tl w1 ++ [xorb (nth 3 w1 false) (nth 0 w1 false)])
             (tl w2 ++ [xorb (xorb (nth 3 w2 false) (nth 2 w2 false)) (xorb (nth 1 w2 false) (nth 0 w2 false))])
  end.
Definition c_3gpp (seed : list bool) (n : nat) : bool :=
  let (w1, w2) := gold_3gpp (1600 + n) (true :: repeat false 30) seed in
  xorb (nth 0 w1 false) (nth 0 w2 false).

(** The recurrences the generator actually follows for a seed of [m] bits. *)
Definition prg_streams (seed : list bool) (x1 x2 : nat -> bool) : Prop :=
  let m := length seed in
  (forall i, i < m -> x1 i = (i =? 0)) /\
  (forall i, i < m -> x2 i = nth i seed false) /\
  (forall n, x1 (n + m) = xorb (x1 (n + (m - 3))) (x1 n)) /\
  (forall n, x2 (n + m) = xorb (xorb (x2 (n + (m - 3))) (x2 (n + (m - 2)))) (xorb (x2 (n + (m - 1))) (x1 (S n)))).
