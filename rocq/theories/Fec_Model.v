(** Model of hermespy/fec: encoder manager, repetition code, block interleaver,
    CRC stage and the two scramblers.

    Simplifications that apply to the whole file
    - bit vectors (numpy arrays of bool / int8) are [list bool];
    - [ceil(a / b)] and [int(a / b)] are computed exactly, the code divides
      floats (identical below 2^53);
    - a registered encoder is an arbitrary object: because such objects may be
      stateful (scramblers) or random (CRC), its [encode] and [decode] are
      functions of the blocks the object has processed before and of the current
      block. *)
From Coq Require Import List Arith Bool.
From Verif Require Import Base.
Import ListNotations.


(** fec/coding.py:23-150 [Encoder]: the interface the manager relies on.
    [m_ehist] / [m_dhist] are the blocks the object already encoded / decoded. *)
Record member := mkMember {
  m_enabled : bool;                     (* Encoder.enabled *)
  m_K : nat;                            (* Encoder.bit_block_size *)
  m_L : nat;                            (* Encoder.code_block_size *)
  m_enc : list bits -> bits -> bits;    (* Encoder.encode *)
  m_dec : list bits -> bits -> bits;    (* Encoder.decode *)
  m_ehist : list bits;
  m_dhist : list bits }.

Definition set_ehist (m : member) (h : list bits) : member :=
  mkMember (m_enabled m) (m_K m) (m_L m) (m_enc m) (m_dec m) h (m_dhist m).
Definition set_dhist (m : member) (h : list bits) : member :=
  mkMember (m_enabled m) (m_K m) (m_L m) (m_enc m) (m_dec m) (m_ehist m) h.

(** Calling a stateful method on consecutive blocks. *)
Fixpoint run (f : list bits -> bits -> bits) (h : list bits) (bs : list bits) : list bits :=
  match bs with
  | [] => []
  | b :: t => f h b :: run f (h ++ [b]) t
  end.

(** numpy assignment [target[i*n:(i+1)*n] = block] (coding.py:265-267, 357-361):
    the right-hand side must have [n] entries, one entry is broadcast. *)
Definition assign_block (n : nat) (b : bits) : result bits :=
  if length b =? n then Ok b
  else match b with
       | [x] => Ok (repeat x n)
       | _ => Raise ValueError
       end.

(** fec/coding.py:176-195 [EncoderManager.__init__]; [mg_rng] is the random bit
    stream of the manager's generator and [mg_pos] the number of bits drawn. *)
Record manager := mkManager {
  mg_encoders : list member;
  mg_pad : bool;                        (* allow_padding *)
  mg_trunc : bool;                      (* allow_truncating *)
  mg_rng : nat -> bool;
  mg_pos : nat }.

(** [self._rng.integers(0, 2, n, dtype=bool)]. *)
Definition draw (rng : nat -> bool) (pos n : nat) : bits := map rng (seq pos n).

(** fec/coding.py:413-420 [__execution_order]: stable [sorted] by bit block
    size, written as insertion sort (insert before the first strictly larger). *)
Fixpoint insert_member (m : member) (l : list member) : list member :=
  match l with
  | [] => [m]
  | x :: t => if m_K m <? m_K x then m :: x :: t else x :: insert_member m t
  end.
Definition execution_order (l : list member) : list member :=
  fold_left (fun acc m => insert_member m acc) l [].

(** fec/coding.py:197-210 [add_encoder] (the [manager] back-reference that is
    set on the encoder is not modelled). *)
Definition add_encoder (mg : manager) (m : member) : manager :=
  mkManager (execution_order (mg_encoders mg ++ [m])) (mg_pad mg) (mg_trunc mg)
            (mg_rng mg) (mg_pos mg).

(** fec/coding.py:398-411 [code_block_size]. *)
Definition code_block_size (mg : manager) : nat :=
  match find m_enabled (rev (mg_encoders mg)) with
  | Some m => m_L m
  | None => 1
  end.

(** fec/coding.py:388-394: the second loop of [bit_block_size].
    [encoder.rate] is K / L (coding.py:143-155), so
    [int(repetitions / rate) = floor (repetitions * L / K)]. *)
Fixpoint bit_block_loop (l : list member) (block_size num_bits : nat) : result nat :=
  match l with
  | [] => Ok block_size
  | m :: t =>
      if m_enabled m then
        if num_bits =? 0 then Raise ZeroDivisionError
        else if (m_K m =? 0) || (m_L m =? 0) then Raise ZeroDivisionError
        else
          let repetitions := m_K m / num_bits in
          bit_block_loop t (block_size * repetitions)
                           (num_bits * (repetitions * m_L m / m_K m))
      else bit_block_loop t block_size num_bits
  end.

(** fec/coding.py:367-396 [bit_block_size]. *)
Fixpoint bit_block_size_of (l : list member) : result nat :=
  match l with
  | [] => Ok 1
  | m :: t => if m_enabled m then bit_block_loop t (m_K m) (m_L m) else bit_block_size_of t
  end.
Definition bit_block_size (mg : manager) : result nat := bit_block_size_of (mg_encoders mg).

(** fec/coding.py:442-452 [required_num_data_bits]. *)
Definition required_num_data_bits (mg : manager) (num_code_bits : nat) : result nat :=
  if code_block_size mg =? 0 then Raise ZeroDivisionError
  else do k <- bit_block_size mg; Ok (k * (num_code_bits / code_block_size mg)).

(** fec/coding.py:242-273: one pass of the loop over the encoders in [encode].
    Returns the encoder with its advanced history, the generator position and
    the new [code_state]. *)
Definition encode_stage (pad : bool) (rng : nat -> bool) (m : member) (pos : nat) (state : bits)
  : result (member * nat * bits) :=
  if m_K m =? 0 then Raise ZeroDivisionError else
  let num_blocks := ceil_div (length state) (m_K m) in
  let required := num_blocks * m_K m in
  do '(pos', data) <-
     (if length state <? required then
        if pad then Ok (pos + (required - length state),
                        state ++ draw rng pos (required - length state))
        else Raise RuntimeError
      else Ok (pos, state));
  let blocks := blocks_of num_blocks (m_K m) data in
  do code <- mapM (assign_block (m_L m)) (run (m_enc m) (m_ehist m) blocks);
  Ok (set_ehist m (m_ehist m ++ blocks), pos', concat code).

Fixpoint encode_chain (pad : bool) (rng : nat -> bool) (l : list member) (pos : nat) (state : bits)
  : result (list member * nat * bits) :=
  match l with
  | [] => Ok ([], pos, state)
  | m :: t =>
      if m_enabled m then
        do '(m', pos', state') <- encode_stage pad rng m pos state;
        do '(t', pos'', out) <- encode_chain pad rng t pos' state';
        Ok (m' :: t', pos'', out)
      else
        do '(t', pos'', out) <- encode_chain pad rng t pos state;
        Ok (m :: t', pos'', out)
  end.

(** fec/coding.py:223-297 [encode].  [num_code_bits = None] and [Some 0] are
    both falsy in Python. *)
Definition encode (mg : manager) (data : bits) (num_code_bits : option nat)
  : result (manager * bits) :=
  do '(l', pos, code) <- encode_chain (mg_pad mg) (mg_rng mg) (mg_encoders mg) (mg_pos mg) data;
  let done pos code := Ok (mkManager l' (mg_pad mg) (mg_trunc mg) (mg_rng mg) pos, code) in
  match num_code_bits with
  | None | Some 0 => done pos code
  | Some n =>
      if n <? length code then Raise RuntimeError
      else if length code <? n then
        if negb (mg_pad mg) then Raise RuntimeError
        else if code_block_size mg <=? n - length code then Raise ValueError
        else done (pos + (n - length code)) (code ++ draw (mg_rng mg) pos (n - length code))
      else done pos code
  end.

(** fec/coding.py:340-361: one pass of the loop over the reversed encoders. *)
Definition decode_stage (m : member) (state : bits) : result (member * bits) :=
  if m_L m =? 0 then Raise ZeroDivisionError else
  let num_blocks := length state / m_L m in
  let code := firstn (num_blocks * m_L m) state in
  let blocks := blocks_of num_blocks (m_L m) code in
  do data <- mapM (assign_block (m_K m)) (run (m_dec m) (m_dhist m) blocks);
  Ok (set_dhist m (m_dhist m ++ blocks), concat data).

(** The loop runs over [reversed(self._encoders)], i.e. the tail first. *)
Fixpoint decode_chain (l : list member) (state : bits) : result (list member * bits) :=
  match l with
  | [] => Ok ([], state)
  | m :: t =>
      do '(t', mid) <- decode_chain t state;
      if m_enabled m then
        do '(m', out) <- decode_stage m mid;
        Ok (m' :: t', out)
      else Ok (m :: t', mid)
  end.

(** fec/coding.py:299-365 [decode]. *)
Definition decode (mg : manager) (code : bits) (num_data_bits : option nat)
  : result (manager * bits) :=
  do bbs <- bit_block_size mg;
  if code_block_size mg =? 0 then Raise ZeroDivisionError else
  let full := (length code / code_block_size mg) * bbs in
  do n <- match num_data_bits with
          | Some n =>
              if full <? n then Raise RuntimeError
              else if negb (mg_trunc mg) && negb (n =? full) then Raise RuntimeError
              else Ok n
          | None => Ok full
          end;
  do '(l', data) <- decode_chain (mg_encoders mg) code;
  Ok (mkManager l' (mg_pad mg) (mg_trunc mg) (mg_rng mg) (mg_pos mg), firstn n data).

(** * Repetition code, fec/repetition_encoder.py *)

(** repetition_encoder.py:84-86 [encode]: [np.tile(bits, repetitions)]. *)
Definition rep_encode (reps : nat) (b : bits) : bits := concat (repeat b reps).

(** Column [j] of the (repetitions x block) reshape and its number of ones
    (repetition_encoder.py:92-94). *)
Definition rep_ones (reps K : nat) (c : bits) (j : nat) : nat :=
  length (filter (fun i => nth (i * K + j) c false) (seq 0 reps)).

(** repetition_encoder.py:88-96 [decode]; [sum / repetitions >= 0.5] is
    [2 * sum >= repetitions].  A reshape of a wrongly sized word raises. *)
Definition rep_decode (reps K : nat) (c : bits) : result bits :=
  if reps =? 1 then Ok c
  else if length c =? reps * K then
    Ok (map (fun j => reps <=? 2 * rep_ones reps K c j) (seq 0 K))
  else Raise ValueError.

(** repetition_encoder.py:69-82, 102-107, 131-139: validated construction. *)
Definition rep_new (K reps : nat) : result (nat * nat) :=
  if K <? 1 then Raise ValueError
  else if reps <? 1 then Raise ValueError
  else if reps mod 2 =? 0 then Raise ValueError
  else Ok (K, reps).

(** * Block interleaver, fec/block_interleaver.py *)

(** block_interleaver.py:62-86: validated construction ([block_size % 0] raises). *)
Definition il_new (K M : nat) : result (nat * nat) :=
  if M =? 0 then Raise ZeroDivisionError
  else if K mod M =? 0 then Ok (K, M) else Raise ValueError.

(** [x.reshape((r, c)).T.flatten()] for a vector of [r * c] entries:
    entry [i] of the result is row [i mod r], column [i / r] of the reshape. *)
Definition transpose_flat (r c : nat) (x : bits) : bits :=
  map (fun i => nth ((i mod r) * c + i / r) x false) (seq 0 (r * c)).

(** block_interleaver.py:88-89: [reshape((M, -1)).T.flatten()]. *)
Definition il_encode (M : nat) (b : bits) : result bits :=
  if M =? 0 then Raise ValueError
  else if length b mod M =? 0 then Ok (transpose_flat M (length b / M) b) else Raise ValueError.

(** block_interleaver.py:91-92: [reshape((-1, M)).T.flatten()]. *)
Definition il_decode (M : nat) (c : bits) : result bits :=
  if M =? 0 then Raise ValueError
  else if length c mod M =? 0 then Ok (transpose_flat (length c / M) M c) else Raise ValueError.

(** * CRC stage, fec/cyclic_redundancy_check.py *)

(** cyclic_redundancy_check.py:63-64; [check] are the random check bits drawn. *)
Definition crc_encode (check data : bits) : bits := data ++ check.

(** cyclic_redundancy_check.py:66-67: [code[: -n]]; for [n = 0] this is
    [code[:0]], the empty array. *)
Definition crc_decode (n : nat) (code : bits) : bits :=
  if n =? 0 then [] else firstn (length code - n) code.

(** * Scramblers, fec/scrambler.py *)

(** [deque[i]] for a non-empty deque; [last k] is [deque[-k]]. *)
Definition at_ (q : bits) (i : nat) : bool := nth i q false.
Definition last_ (q : bits) (k : nat) : bool := nth (length q - k) q false.

(** [deque.append] on a full deque of bounded length drops the first entry. *)
Definition push (q : bits) (x : bool) : bits := tl q ++ [x].
(** [deque.appendleft] on a full deque drops the last entry. *)
Definition push_left (q : bits) (x : bool) : bits := x :: removelast q.

(** scrambler.py:33-126 [PseudoRandomGenerator] state: both registers. *)
Record prg := mkPrg { q1 : bits; q2 : bits }.

(** scrambler.py:114-118 and 120-126 as executed by 79-87 [generate]: the first
    register is advanced before the second one reads its entry 0. *)
Definition prg_step (s : prg) : prg * bool :=
  let x1 := xorb (last_ (q1 s) 3) (at_ (q1 s) 0) in
  let q1' := push (q1 s) x1 in
  let x2 := xorb (xorb (last_ (q2 s) 3) (last_ (q2 s) 2)) (xorb (last_ (q2 s) 1) (at_ q1' 0)) in
  (mkPrg q1' (push (q2 s) x2), xorb x1 x2).

(** scrambler.py:89-103 [generate_sequence]. *)
Fixpoint prg_sequence (n : nat) (s : prg) : prg * bits :=
  match n with
  | 0 => (s, [])
  | S n' => let (s1, b) := prg_step s in
            let (s2, bs) := prg_sequence n' s1 in (s2, b :: bs)
  end.

(** scrambler.py:45-77 [__init__]: at least four bits, 1600 - m fast-forward steps. *)
Definition prg_init (seed : bits) : result prg :=
  let m := length seed in
  if m <? 4 then Raise ValueError
  else Ok (fst (prg_sequence (1600 - m) (mkPrg (true :: repeat false (m - 1)) seed))).

(** Element-wise [(a + b) % 2]. *)
Definition xor_bits (a b : bits) : bits := map (fun p => xorb (fst p) (snd p)) (combine a b).

(** scrambler.py:129-155 [Scrambler3GPP]: independent transmit / receive generators. *)
Record scr3gpp := mkScr { tx_rng : prg; rx_rng : prg }.
Definition scr3gpp_new (seed : bits) : result scr3gpp :=
  do s <- prg_init seed; Ok (mkScr s s).

(** scrambler.py:157-161. *)
Definition scr3gpp_encode (s : scr3gpp) (data : bits) : scr3gpp * bits :=
  let (g, w) := prg_sequence (length data) (tx_rng s) in
  (mkScr g (rx_rng s), xor_bits data w).
(** scrambler.py:163-167. *)
Definition scr3gpp_decode (s : scr3gpp) (code : bits) : scr3gpp * bits :=
  let (g, w) := prg_sequence (length code) (rx_rng s) in
  (mkScr (tx_rng s) g, xor_bits code w).

(** scrambler.py:251-264 [__forward_code_bit] on the 7 bit register. *)
Definition w_forward (q : bits) : bits * bool :=
  let b := xorb (at_ q 3) (at_ q 6) in (push_left q b, b).

(** scrambler.py:243-249, 266-276: [encode] and [decode] are the same loop over
    the one register of the object. *)
Fixpoint w_scramble (q : bits) (data : bits) : bits * bits :=
  match data with
  | [] => (q, [])
  | x :: t => let (q1, b) := w_forward q in
              let (q2, out) := w_scramble q1 t in (q2, xorb b x :: out)
  end.
Definition scr80211a_encode := w_scramble.
Definition scr80211a_decode := w_scramble.

(** scrambler.py:74-77, 105-112: the generator together with the copies made for
    [reset]. *)
Record prg_obj := mkPrgObj { po_state : prg; po_initial : prg }.
Definition prg_obj_new (seed : bits) : result prg_obj :=
  do s <- prg_init seed; Ok (mkPrgObj s s).
Definition prg_obj_generate (o : prg_obj) (n : nat) : prg_obj * bits :=
  let (s, b) := prg_sequence n (po_state o) in (mkPrgObj s (po_initial o), b).
Definition prg_obj_reset (o : prg_obj) : prg_obj := mkPrgObj (po_initial o) (po_initial o).
