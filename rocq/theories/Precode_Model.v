(** Symbol precoding, combining and zero forcing.
    Models hermespy/modem/precoding/{space_time_block_coding,ratio_combining,single_carrier,
    dft,symbol_precoding}.py, hermespy/core/precoding.py and the zero forcing equalization
    of hermespy/modem/waveform.py.

    Simplification: a numpy array is its shape and a total function of its indices; only
    indices inside the shape are meaningful.  [StatedSymbols] checks that the shapes of
    symbols and states agree (modem/symbols.py:361-381), so one shape is recorded.  Sparse
    and dense states are not distinguished.  Numbers are exact. *)
From Coq Require Import Reals List Arith Bool ZArith QArith.
From Coquelicot Require Import Complex.
From Verif Require Import Base Cplx.
From Verif Require Fec_Model.
Import ListNotations.
Open Scope R_scope.
Open Scope C_scope.

(** StatedSymbols (modem/symbols.py:316-411): [raw stream block symbol] and
    [state receive transmit block symbol] *)
Record stated := mkStated {
  streams : nat;   (* symbols.num_streams *)
  txs : nat;       (* symbols.num_transmit_streams *)
  blocks : nat;    (* symbols.num_blocks *)
  width : nat;     (* symbols.num_symbols *)
  raw : nat -> nat -> nat -> C;
  state : nat -> nat -> nat -> nat -> C }.

(** [np.abs(z) ** 2] *)
Definition abs2 (z : C) : R := (fst z * fst z + snd z * snd z)%R.

(** *** Alamouti *)

(** Alamouti.encode_symbols (space_time_block_coding.py:36-77) *)
Definition alamouti_encode (s : stated) (outs : Z) : result stated :=
  if negb (streams s =? 1)%nat then Raise ValueError
  else if negb (outs =? 2)%Z then Raise ValueError
  else if negb (Nat.even (blocks s)) then Raise ValueError
  else Ok (mkStated 2 (txs s) (blocks s) (width s)
    (fun a b k =>
       if (a =? 0)%nat then raw s 0 b k
       else if Nat.even b then - conj (raw s 0 (S b) k)
       else conj (raw s 0 (b - 1) k))
    (fun r t b k => state s (r / 2) t b k)).

(** Alamouti.decode_symbols (space_time_block_coding.py:79-123).  [states[:, :2, 0::2, :]]
    has fewer than two transmit streams if the states have: indexing the second raises.
    The requested number of output streams is not used. *)
Definition alamouti_decode (s : stated) (outs : Z) : result stated :=
  if negb (Nat.even (blocks s)) then Raise ValueError
  else if (txs s <? 2)%nat then Raise IndexError
  else
    let h a r p k := state s r a (2 * p)%nat k in
    let weight r p k := RtoC (abs2 (h 0%nat r p k) + abs2 (h 1%nat r p k))%R in
    Ok (mkStated (streams s) 1 (blocks s) (width s)
      (fun r b k =>
         let p := (b / 2)%nat in
         if Nat.even b
         then (conj (h 0%nat r p k) * raw s r (2 * p)%nat k
               + h 1%nat r p k * conj (raw s r (2 * p + 1)%nat k)) / weight r p k
         else (conj (h 0%nat r p k) * raw s r (2 * p + 1)%nat k
               - h 1%nat r p k * conj (raw s r (2 * p)%nat k)) / weight r p k)
      (fun _ _ _ _ => RtoC 1)).

(** *** Ganesan *)

(** The values assigned to [output[a, m::4, :]] from the three symbols of a group
    (space_time_block_coding.py:211-229) *)
Definition ganesan_cell (x : nat -> C) (a m : nat) : C :=
  match a, m with
  | O, O => x 0%nat | O, 1%nat => 0 | O, 2%nat => x 1%nat | O, _ => - x 2%nat
  | 1%nat, O => 0 | 1%nat, 1%nat => x 0%nat | 1%nat, 2%nat => conj (x 2%nat) | 1%nat, _ => conj (x 1%nat)
  | 2%nat, O => - conj (x 1%nat) | 2%nat, 1%nat => - x 2%nat | 2%nat, 2%nat => conj (x 0%nat) | 2%nat, _ => 0
  | _, O => conj (x 2%nat) | _, 1%nat => - x 1%nat | _, 2%nat => 0 | _, _ => conj (x 0%nat)
  end.

(** Ganesan.encode_symbols (space_time_block_coding.py:164-234) *)
Definition ganesan_encode (s : stated) (outs : Z) : result stated :=
  if negb (streams s =? 1)%nat then Raise ValueError
  else if negb (outs =? 4)%Z then Raise RuntimeError
  else if negb (blocks s mod 3 =? 0)%nat then Raise ValueError
  else Ok (mkStated 4 (txs s) (blocks s / 3 * 4) (width s)
    (fun a b k => ganesan_cell (fun i => raw s 0 (3 * (b / 4) + i)%nat k) a (b mod 4))
    (fun _ _ _ _ => RtoC 1)).

(** Real matrices as functions, and [sum_{i < n} f i] *)
Fixpoint rsum (f : nat -> R) (n : nat) : R :=
  match n with O => 0 | S k => rsum f k + f k end.

(** signs_matrix and index_matrix (space_time_block_coding.py:288-294) *)
Definition signs_matrix_real : list (list R) :=
  [[1; -1; 1; -1; -1; 1]; [1; -1; -1; -1; 1; 1]; [1; 1; 1; 1; -1; 1]; [1; 1; -1; 1; 1; 1]].
Definition sign (j c : nat) : R :=
  if (j <? 4)%nat then nth c (nth j signs_matrix_real []) 0%R
  else let v := nth c (nth (j - 4) signs_matrix_real []) 0%R in
       if (c <? 3)%nat then v else (- v)%R.
Definition index_matrix : list (list nat) := [[0; 2; 3]; [1; 3; 2]; [2; 0; 1]; [3; 1; 0]]%nat.
Definition idx (m c : nat) : nat := nth c (nth m index_matrix []) 0%nat.

(** The array [an] after the loop of one symbol period, with the signs applied and
    transposed (space_time_block_coding.py:311-323): an 8 x 6 matrix.  [h t m] is the
    channel state of transmit stream [t] at block [m] of the period. *)
Definition ganesan_matrix (h : nat -> nat -> C) (j c : nat) : R :=
  ((if (j <? 4)%nat
    then if (c <? 3)%nat then fst (h (idx j c) j) else snd (h (idx j (c - 3)) j)
    else if (c <? 3)%nat then snd (h (idx (j - 4) c) (j - 4)%nat)
         else fst (h (idx (j - 4) (c - 3)) (j - 4)%nat)) * sign j c)%R.

(** Real and imaginary parts of the received symbols of a period (line 326-327) *)
Definition ganesan_rhs (y : nat -> C) (j : nat) : R :=
  if (j <? 4)%nat then fst (y j) else snd (y (j - 4)%nat).

Section Ganesan.
(** numpy.linalg.pinv of an 8 x 6 matrix *)
Variable pinv : (nat -> nat -> R) -> nat -> nat -> R.

(** Ganesan.decode_symbols (space_time_block_coding.py:236-339) *)
Definition ganesan_decode (s : stated) (outs : Z) : result stated :=
  if negb (blocks s mod 4 =? 0)%nat then Raise ValueError
  else if negb (txs s =? 4)%nat then Raise ValueError
  else
    let estimate r n k :=
      let p := pinv (ganesan_matrix (fun t m => state s r t (n * 4 + m)%nat k)) in
      let b := ganesan_rhs (fun m => raw s r (n * 4 + m)%nat k) in
      fun c => rsum (fun l => p c l * b l)%R 8 in
    Ok (mkStated (streams s) 1 (blocks s / 4 * 3) (width s)
      (fun r b k => let e := estimate r (b / 3)%nat k in (e (b mod 3), e (3 + b mod 3)%nat))
      (fun _ _ _ _ => RtoC 1)).
End Ganesan.

(** *** Receive diversity *)

(** [x.reshape((n, num_blocks * num_symbols))] and back, C order *)
Definition flat {B} (w : nat) (f : nat -> nat -> B) (p : nat) : B := f (p / w)%nat (p mod w).
Definition unflat {B} (w : nat) (g : nat -> B) (b k : nat) : B := g (b * w + k)%nat.

(** MaximumRatioCombining.decode_symbols (ratio_combining.py:28-54) *)
Definition mrc_decode (s : stated) (outs : Z) : result stated :=
  if negb (txs s =? 1)%nat then Raise RuntimeError
  else
    let simo r := flat (width s) (fun b k => state s r 0%nat b k) in
    let sym r := flat (width s) (fun b k => raw s r b k) in
    let est p := csum (fun r => conj (simo r p) * sym r p) (streams s)
                 / RtoC (rsum (fun r => abs2 (simo r p)) (streams s)) in
    Ok (mkStated 1 1 (blocks s) (width s)
      (fun _ b k => unflat (width s) est b k)
      (fun _ _ b k => RtoC (rsum (fun r => abs2 (state s r 0%nat b k)) (streams s)))).

(** numpy.argmax of [f 0 .. f n]: the first index of the maximum *)
Fixpoint argmax (f : nat -> R) (n : nat) : nat :=
  match n with
  | O => 0
  | S k => let m := argmax f k in if Rlt_dec (f m) (f (S k)) then S k else m
  end.

(** SingleCarrier.decode_symbols (single_carrier.py:28-50): argmax of an empty axis
    raises; take_along_axis with an index array of two transmit streams broadcasts a
    single transmit stream to two and raises for more than two. *)
Definition sc_decode (s : stated) (outs : Z) : result stated :=
  match streams s with
  | O => Raise ValueError
  | S n =>
      let sel b k := argmax (fun r => Cmod (csum (fun t => state s r t b k) (txs s))) n in
      if (2 <? txs s)%nat || (txs s =? 0)%nat then Raise IndexError
      else Ok (mkStated 1 2 (blocks s) (width s)
        (fun _ b k => raw s (sel b k) b k)
        (fun _ t b k => state s (sel b k) (if (txs s =? 1)%nat then 0 else t)%nat b k))
  end.

(** *** DFT precoding (dft.py:59-69), along the blocks *)
Definition dft_encode_symbols (m : norm) (s : stated) (outs : Z) : result stated :=
  Ok (mkStated (streams s) (txs s) (blocks s) (width s)
    (fun r b k => fft_at m (fun i => raw s r i k) (blocks s) b) (state s)).
Definition dft_decode_symbols (m : norm) (s : stated) (outs : Z) : result stated :=
  Ok (mkStated (streams s) (txs s) (blocks s) (width s)
    (fun r b k => ifft_at m (fun i => raw s r i k) (blocks s) b) (state s)).

(** *** Zero forcing (waveform.py:238-250) *)
Section ZF.
(** numpy.linalg.pinv of a complex matrix with the given numbers of rows and columns *)
Variable pinv : nat -> nat -> (nat -> nat -> C) -> nat -> nat -> C.

(** Shape (streams, blocks, symbols) and contents of the equalized symbols *)
Definition zf_equalize (s : stated) : nat * (nat -> nat -> nat -> C) :=
  if (streams s <? 2)%nat
  then (streams s, fun r b k => raw s r b k / csum (fun t => state s r t b k) (txs s))
  else (txs s, fun a b k =>
         csum (fun l => pinv (streams s) (txs s) (fun r t => state s r t b k) a l * raw s l b k)
              (streams s)).
End ZF.

(** *** Chains of precoders (core/precoding.py) *)
Section Chain.
Context {A : Type}.
Variable num_streams : A -> nat.

(** A transmit encoder: encode_symbols / encode_streams, num_transmit_input_streams,
    num_transmit_input_symbols, num_transmit_output_symbols *)
Record tcoder := mkT {
  t_apply : A -> Z -> result A; t_ins : Z -> Z; t_in : positive; t_out : positive }.
(** A receive decoder: decode_symbols / decode_streams, num_receive_output_streams,
    num_receive_input_symbols, num_receive_output_symbols *)
Record rcoder := mkR {
  r_apply : A -> Z -> result A; r_outs : Z -> Z; r_in : positive; r_out : positive }.

(** TransmitPrecoding._collect_encoder_num_io_streams (core/precoding.py:201-233) *)
Fixpoint collect_in (chain : list tcoder) (outs : Z) : result (list Z) :=
  match chain with
  | [] => Ok [outs]
  | c :: t => do l <- collect_in t outs;
              let n := t_ins c (hd 0%Z l) in
              if (n <? 0)%Z then Raise ValueError else Ok (n :: l)
  end.
Definition collect_encoder (chain : list tcoder) (outs : Z) : result (list Z) :=
  if (outs <? 1)%Z then Raise ValueError else collect_in chain outs.

(** TransmitPrecoding.num_transmit_input_streams (core/precoding.py:235-248) *)
Definition num_transmit_input_streams (chain : list tcoder) (outs : Z) : result Z :=
  match chain with
  | [] => Ok outs
  | _ => do l <- collect_encoder chain outs; Ok (hd 0%Z l)
  end.

(** ReceivePrecoding._collect_decoder_num_io_streams (core/precoding.py:254-271) *)
Fixpoint collect_out (chain : list rcoder) (ins : Z) : result (list Z) :=
  match chain with
  | [] => Ok [ins]
  | c :: t => let n := r_outs c ins in
              if (n <? 0)%Z then Raise ValueError
              else do l <- collect_out t n; Ok (ins :: l)
  end.
Definition collect_decoder (chain : list rcoder) (ins : Z) : result (list Z) :=
  if (ins <? 1)%Z then Raise ValueError else collect_out chain ins.

(** ReceivePrecoding.num_receive_output_streams (core/precoding.py:273-286) *)
Definition num_receive_output_streams (chain : list rcoder) (ins : Z) : result Z :=
  match chain with
  | [] => Ok ins
  | _ => do l <- collect_decoder chain ins; Ok (last l 0%Z)
  end.

(** [for coder, n in zip(chain, counts): x = coder.apply(x, n)] *)
Fixpoint run {K} (apply : K -> A -> Z -> result A) (chain : list K) (counts : list Z) (x : A)
  : result A :=
  match chain, counts with
  | c :: t, n :: ns => do y <- apply c x n; run apply t ns y
  | _, _ => Ok x
  end.

(** TransmitSymbolCoding.encode_symbols (symbol_precoding.py:117-137) *)
Definition encode_symbols (chain : list tcoder) (x : A) (outs : Z) : result A :=
  do io <- collect_encoder chain outs; run t_apply chain (tl io) x.
(** ReceiveSymbolCoding.decode_symbols (symbol_precoding.py:174-194) *)
Definition decode_symbols (chain : list rcoder) (x : A) : result A :=
  do io <- collect_decoder chain (Z.of_nat (num_streams x)); run r_apply chain (tl io) x.

(** TransmitSignalCoding.encode_streams (core/precoding.py:340-375); [ports] is
    device.num_transmit_rf_ports *)
Definition encode_streams (chain : list tcoder) (x : A) (ports : Z) : result A :=
  match chain with
  | [] => Ok x
  | _ => do io <- collect_encoder chain ports;
         if negb (Z.of_nat (num_streams x) =? hd 0 io)%Z then Raise ValueError
         else run t_apply chain (tl io) x
  end.
(** ReceiveSignalCoding.decode_streams (core/precoding.py:381-410); [ports] is
    device.num_receive_rf_ports *)
Definition decode_streams (chain : list rcoder) (x : A) (ports : Z) : result A :=
  match chain with
  | [] => Ok x
  | _ => do io <- collect_decoder chain ports; run r_apply chain (tl io) x
  end.

(** encode_rate, decode_rate of a coder (symbol_precoding.py:63-66, 105-108) *)
Definition encode_rate (c : tcoder) : Q := Zpos (t_in c) # t_out c.
Definition decode_rate (c : rcoder) : Q := Zpos (r_out c) # r_in c.
(** ... and of a chain (symbol_precoding.py:139-147, 196-204) *)
Definition chain_encode_rate (chain : list tcoder) : Q :=
  fold_left (fun r c => (r * encode_rate c)%Q) chain 1%Q.
Definition chain_decode_rate (chain : list rcoder) : Q :=
  fold_left (fun r c => (r * decode_rate c)%Q) chain 1%Q.
(** num_encoded_blocks (symbol_precoding.py:149-165) and num_decoded_blocks (206-222).
    [int] of a non-negative fraction is its floor. *)
Definition num_encoded_blocks (chain : list tcoder) (n : nat) : Z :=
  Qround.Qfloor (fold_left (fun q c => (q / encode_rate c)%Q) chain (inject_Z (Z.of_nat n))).
Definition num_decoded_blocks (chain : list rcoder) (n : nat) : Z :=
  Qround.Qfloor (fold_left (fun q c => (q / decode_rate c)%Q) (rev chain) (inject_Z (Z.of_nat n))).
End Chain.
Arguments tcoder : clear implicits.
Arguments rcoder : clear implicits.

(** The precoders as members of a chain: rates and stream counts of
    space_time_block_coding.py:125-145, 341-361, dft.py:71-93, ratio_combining.py:56-65,
    single_carrier.py:52-61 *)
Definition alamouti_t : tcoder stated :=
  mkT alamouti_encode (fun o => if (o =? 2)%Z then 1 else -1)%Z 2 2.
Definition alamouti_r : rcoder stated := mkR alamouti_decode (fun i => i) 2 2.
Definition ganesan_t : tcoder stated :=
  mkT ganesan_encode (fun o => if (o =? 4)%Z then 1 else -1)%Z 3 4.
Definition ganesan_r pinv : rcoder stated := mkR (ganesan_decode pinv) (fun i => i) 4 3.
Definition dft_t m : tcoder stated := mkT (dft_encode_symbols m) (fun o => o) 1 1.
Definition dft_r m : rcoder stated := mkR (dft_decode_symbols m) (fun i => i) 1 1.
Definition mrc_r : rcoder stated := mkR mrc_decode (fun _ => 1%Z) 1 1.
Definition sc_r : rcoder stated := mkR sc_decode (fun _ => 1%Z) 1 1.

(** *** Editing a chain (core/precoding.py:147-184) *)
Section Editing.
Context {K : Type}.
(** Precoding.__setitem__ (147-167) *)
Definition setitem (chain : list K) (i : Z) (c : K) : result (list K) :=
  if (i <? 0)%Z then Ok (c :: chain)
  else if (i =? Z.of_nat (length chain))%Z then Ok (chain ++ [c])
  else if (i <? Z.of_nat (length chain))%Z
       then Ok (firstn (Z.to_nat i) chain ++ c :: skipn (S (Z.to_nat i)) chain)
       else Raise IndexError.
(** Precoding.pop_precoder (174-184): list.pop with Python's negative indices *)
Definition pop_precoder (chain : list K) (i : Z) : result (K * list K) :=
  let n := Z.of_nat (length chain) in
  let j := if (i <? 0)%Z then (i + n)%Z else i in
  if (j <? 0)%Z || (n <=? j)%Z then Raise IndexError
  else match nth_error chain (Z.to_nat j) with
       | Some c => Ok (c, firstn (Z.to_nat j) chain ++ skipn (S (Z.to_nat j)) chain)
       | None => Raise IndexError
       end.
End Editing.

(** *** Modem constructors (modem/modem.py) *)
Section Construction.
Context {K : Type}.
(** TransmittingModemBase.__init__ / ReceivingModemBase.__init__ given a list of precoders
    (modem.py:692-708, 1047-1063): [for c in chain: self.coding[-1] = c] on a new coding *)
Definition coding_from_list (l : list K) : result (list K) :=
  fold_left (fun r c => do chain <- r; setitem chain (-1) c) l (Ok []).
(** ... given a coding object: the loop iterates over the coding it edits.  [Sequence]
    iterates by increasing index until [__getitem__] raises.  [None]: still running. *)
Fixpoint coding_from_coding (fuel i : nat) (chain : list K) : option (result (list K)) :=
  match fuel with
  | O => None
  | S f => match nth_error chain i with
           | None => Some (Ok chain)
           | Some c => match setitem chain (-1) c with
                       | Ok chain' => coding_from_coding f (S i) chain'
                       | Raise e => Some (Raise e)
                       end
           end
  end.
(** Serialization writes the chain in order (modem.py:891-895, 1270-1273), deserialization
    passes the sequence read to the constructor (897-908) *)
Definition coding_reloaded (chain : list K) : result (list K) := coding_from_list chain.
End Construction.

(** BaseModem.__init__ given an encoder manager (modem.py:538-545): [for e in
    encoding.encoders: self.encoder_manager.add_encoder(e)] with the same manager.  The loop
    iterates over the list object that the first addition extends and then replaces by a
    sorted copy (fec/coding.py:209-210), so it sees the first encoder once more. *)
Definition modem_encoders (mg : Fec_Model.manager) : Fec_Model.manager :=
  match Fec_Model.mg_encoders mg with
  | [] => mg
  | e :: t => fold_left Fec_Model.add_encoder (e :: t ++ [e]) mg
  end.
(** ... given a list: the encoders are added to a new manager (modem.py:539-545) *)
Definition modem_encoders_from_list (new : Fec_Model.manager) (l : list Fec_Model.member) : Fec_Model.manager :=
  fold_left Fec_Model.add_encoder l new.
