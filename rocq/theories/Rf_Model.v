(** Model of hermespy/simulation/rf/chain.py: graphs of radio frequency blocks.

    Simplifications for the whole file
    - block references are positions in the chain's list of references; references
      that belong to another chain are not modelled;
    - port indices are natural numbers (Python rejects negative ones, chain.py:196,199);
    - a signal is its list of streams, a stream its list of samples; carrier
      frequencies, noise powers, sampling rates and resampling are not modelled;
    - a block together with its realization is a total function from its input
      streams to its output streams (exceptions raised by blocks are not modelled). *)
From Coq Require Import List Arith Bool.
From Verif Require Import Base.
Import ListNotations.

Section Rf.
Variable A : Type.                     (* samples *)
Variable zero : A.
Notation stream := (list A).
Notation signal := (list stream).

(** block.py:78-265 [RFBlock]. *)
Record block := mkBlock {
  b_in : nat;                          (* num_input_ports *)
  b_out : nat;                         (* num_output_ports *)
  b_dspin : bool;                      (* isinstance DSPInputBlock *)
  b_dspout : bool;                     (* isinstance DSPOutputBlock *)
  b_prop : signal -> signal }.         (* propagate *)
Definition no_block := mkBlock 0 0 false false (fun s => s).

(** An entry of an ordered dictionary of connections: other block, output ports, input ports. *)
Definition conn := (nat * (list nat * list nat))%type.

(** chain.py:99-114, 339-365. *)
Record chain := mkChain {
  ch_blocks : list block;
  ch_inc : nat -> list conn;           (* __incoming_connections of a reference *)
  ch_outg : nat -> list conn;          (* __outgoing_connections *)
  ch_dspin : list nat; ch_dspout : list nat;
  ch_rfin : list nat; ch_rfout : list nat }.

Definition chain_new : chain := mkChain [] (fun _ => []) (fun _ => []) [] [] [] [].
Definition block_at (c : chain) (r : nat) : block := nth r (ch_blocks c) no_block.

(** chain.py:402-434 [add_block] ([__rf_origin_blocks] is written but never read
    except by [serialize]; not stored). *)
Definition add_block (c : chain) (b : block) : chain :=
  let r := length (ch_blocks c) in
  mkChain (ch_blocks c ++ [b]) (ch_inc c) (ch_outg c)
    (if (0 <? b_in b) && b_dspin b then ch_dspin c ++ [r] else ch_dspin c)
    (if (0 <? b_out b) && b_dspout b then ch_dspout c ++ [r] else ch_dspout c)
    (if (0 <? b_in b) && negb (b_dspin b) then ch_rfin c ++ [r] else ch_rfin c)
    (if (0 <? b_out b) && negb (b_dspout b) then ch_rfout c ++ [r] else ch_rfout c).

(** Assignment to an [OrderedDict]: an existing key keeps its place. *)
Fixpoint dict_set (k : nat) (v : list nat * list nat) (d : list conn) : list conn :=
  match d with
  | [] => [(k, v)]
  | (k', v') :: t => if k' =? k then (k, v) :: t else (k', v') :: dict_set k v t
  end.
Definition upd {X} (g : nat -> X) (k : nat) (v : X) : nat -> X := fun x => if x =? k then v else g x.

(** chain.py:146-156. *)
Definition connected_in (c : chain) (r : nat) : nat :=
  list_sum (map (fun e => length (fst (snd e))) (ch_inc c r)).
Definition connected_out (c : chain) (r : nat) : nat :=
  list_sum (map (fun e => length (fst (snd e))) (ch_outg c r)).

(** A port reference (chain.py:299-336): block reference, port indices, is it an input? *)
Record port := mkPort { p_ref : nat; p_idx : list nat; p_isin : bool }.

(** [list.remove] of the first occurrence. *)
Fixpoint remove_one (x : nat) (l : list nat) : list nat :=
  match l with
  | [] => []
  | y :: t => if y =? x then t else y :: remove_one x t
  end.
Definition member (x : nat) (l : list nat) : bool := existsb (Nat.eqb x) l.

(** chain.py:196-201 = 220-225: the range checks of [connect_to] and [connect_from]. *)
Definition ports_ok (c : chain) (o i : nat) (op ip : list nat) : bool :=
  forallb (fun p => p <? b_out (block_at c o)) op &&
  ((b_in (block_at c i) =? 0) || forallb (fun p => p <? b_in (block_at c i)) ip).

(** chain.py:181-203 [connect_to]. *)
Definition connect_to (c : chain) (o i : nat) (op ip : list nat) : result chain :=
  if ports_ok c o i op ip then
    Ok (mkChain (ch_blocks c) (ch_inc c) (upd (ch_outg c) o (dict_set i (op, ip) (ch_outg c o)))
                (ch_dspin c) (ch_dspout c) (ch_rfin c) (ch_rfout c))
  else Raise ValueError.
(** chain.py:205-227 [connect_from]. *)
Definition connect_from (c : chain) (o i : nat) (op ip : list nat) : result chain :=
  if ports_ok c o i op ip then
    Ok (mkChain (ch_blocks c) (upd (ch_inc c) i (dict_set o (op, ip) (ch_inc c i))) (ch_outg c)
                (ch_dspin c) (ch_dspout c) (ch_rfin c) (ch_rfout c))
  else Raise ValueError.

(** chain.py:482-534 [connect].  The state after a raised exception is returned
    too.  A port of a block that is not in the chain's list cannot be obtained from
    the chain; the model answers IndexError. *)
Definition connect (c : chain) (a b : port) : chain * option exn :=
  if (length (ch_blocks c) <=? p_ref a) || (length (ch_blocks c) <=? p_ref b) then (c, Some IndexError)
  else if Bool.eqb (p_isin a) (p_isin b) then (c, Some ValueError)
  else if negb (length (p_idx a) =? length (p_idx b)) then (c, Some ValueError)
  else
    let (inp, out) := if p_isin a then (a, b) else (b, a) in
    let o := p_ref out in let i := p_ref inp in
    match connect_to c o i (p_idx out) (p_idx inp) with
    | Raise e => (c, Some e)
    | Ok c1 =>
        match connect_from c1 o i (p_idx out) (p_idx inp) with
        | Raise e => (c1, Some e)
        | Ok c2 =>
            (mkChain (ch_blocks c2) (ch_inc c2) (ch_outg c2) (ch_dspin c2) (ch_dspout c2)
               (if (b_in (block_at c2 i) <=? connected_in c2 i) && member i (ch_rfin c2)
                then remove_one i (ch_rfin c2) else ch_rfin c2)
               (if (b_out (block_at c2 o) <=? connected_out c2 o) && member o (ch_rfout c2)
                then remove_one o (ch_rfout c2) else ch_rfout c2),
             None)
        end
    end.

(** Histories of calls. *)
Inductive op := AddBlock (b : block) | Connect (a b : port).
Definition apply_op (c : chain) (o : op) : chain :=
  match o with
  | AddBlock b => add_block c b
  | Connect a b => fst (connect c a b)
  end.
Definition build (ops : list op) : chain := fold_left apply_op ops chain_new.

(** chain.py:158-167 [open_input_ports]: [list.remove] raises if the index is missing. *)
Fixpoint remove_all (ps : list nat) (l : list nat) : result (list nat) :=
  match ps with
  | [] => Ok l
  | p :: t => if member p l then remove_all t (remove_one p l) else Raise ValueError
  end.
Definition open_input_ports (c : chain) (r : nat) : result (list nat) :=
  remove_all (flat_map (fun e => snd (snd e)) (ch_inc c r)) (seq 0 (b_in (block_at c r))).

(** * Propagation *)
Variable ns : nat.                     (* num_samples *)

(** [block_input[i, :k] = row] for a row of [k] samples. *)
Definition set_row (rows : signal) (i : nat) (row : stream) : signal :=
  firstn i rows ++ map (fun old => row ++ skipn (length row) old) (firstn 1 (skipn i rows)) ++ skipn (S i) rows.

(** [block_input[idx, :k] = rows] with numpy's broadcasting of a single row;
    chain.py:648, 653. *)
Fixpoint set_rows (rows : signal) (idx : list nat) (vals : signal) : signal :=
  match idx, vals with
  | i :: idx', v :: vals' => set_rows (set_row rows i v) idx' vals'
  | _, _ => rows
  end.
Definition assign_rows (rows : signal) (idx : list nat) (vals : signal) : result signal :=
  if existsb (fun i => length rows <=? i) idx then Raise IndexError
  else if length vals =? length idx then Ok (set_rows rows idx vals)
  else match vals with
       | [v] => Ok (set_rows rows idx (repeat v (length idx)))
       | _ => Raise ValueError
       end.

(** [impinging_signal[output_ports, :min(num_samples, ...)]] (chain.py:647-648). *)
Definition select_rows (s : signal) (idx : list nat) : result signal :=
  if existsb (fun i => length s <=? i) idx then Raise IndexError
  else Ok (map (fun i => firstn ns (nth i s [])) idx).

(** chain.py:644-648. *)
Fixpoint impinge (input : signal) (conns : list conn) (outs : list signal) : result signal :=
  match conns, outs with
  | (_, (op, ip)) :: conns', s :: outs' =>
      do vals <- select_rows s op;
      do input' <- assign_rows input ip vals;
      impinge input' conns' outs'
  | _, _ => Ok input
  end.

Definition zeros (n : nat) : signal := repeat (repeat zero ns) n.

(** chain.py:640-653: the input of block [r] from the outputs of the blocks it is
    connected to and from the signal fed in from outside. *)
Definition block_input (c : chain) (origin : nat -> option signal) (r : nat) (outs : list signal) : result signal :=
  do inp <- impinge (zeros (b_in (block_at c r))) (ch_inc c r) outs;
  match origin r with
  | None => Ok inp
  | Some s => do ports <- open_input_ports c r; assign_rows inp ports s
  end.

(** Outputs computed so far ([block_outputs]) and, in order, the blocks propagated. *)
Definition memo := list (nat * signal).
Fixpoint lookup (r : nat) (m : memo) : option signal :=
  match m with
  | [] => None
  | (k, s) :: t => if k =? r then Some s else lookup r t
  end.
Record gstate := mkG { g_memo : memo; g_log : list nat }.

(** The list comprehension chain.py:635-638. *)
Fixpoint gen_list (g : nat -> gstate -> result (signal * gstate)) (conns : list conn) (st : gstate)
  : result (list signal * gstate) :=
  match conns with
  | [] => Ok ([], st)
  | (o, _) :: t =>
      do '(s, st1) <- g o st;
      do '(ss, st2) <- gen_list g t st1;
      Ok (s :: ss, st2)
  end.

(** chain.py:613-661 [__generate_output]; recursion into a cycle does not end. *)
Fixpoint generate (fuel : nat) (c : chain) (origin : nat -> option signal) (r : nat) (st : gstate)
  : result (signal * gstate) :=
  match fuel with
  | 0 => Raise RecursionError
  | S k =>
      match lookup r (g_memo st) with
      | Some s => Ok (s, st)
      | None =>
          do '(outs, st1) <- gen_list (generate k c origin) (ch_inc c r) st;
          do inp <- block_input c origin r outs;
          let s := b_prop (block_at c r) inp in
          Ok (s, mkG ((r, s) :: g_memo st1) (g_log st1 ++ [r]))
      end
  end.

(** chain.py:566-571, 604-609: outputs of the listed blocks one after another; the
    write into the pre-allocated array is modelled as concatenation. *)
Fixpoint collect (fuel : nat) (c : chain) (origin : nat -> option signal) (l : list nat) (st : gstate)
  : result (signal * gstate) :=
  match l with
  | [] => Ok ([], st)
  | r :: t =>
      do '(s, st1) <- generate fuel c origin r st;
      do '(ss, st2) <- collect fuel c origin t st1;
      Ok (s ++ ss, st2)
  end.

(** chain.py:554-559: consecutive streams for the digital input blocks. *)
Fixpoint dsp_origins (c : chain) (l : list nat) (s : signal) : nat -> option signal :=
  match l with
  | [] => fun _ => None
  | r :: t => let n := b_in (block_at c r) in
              upd (dsp_origins c t (skipn n s)) r (Some (firstn n s))
  end.
(** chain.py:592-597: consecutive streams for the open ports of the RF input blocks. *)
Fixpoint rf_origins (c : chain) (l : list nat) (s : signal) : result (nat -> option signal) :=
  match l with
  | [] => Ok (fun _ => None)
  | r :: t => do ports <- open_input_ports c r;
              do o <- rf_origins c t (skipn (length ports) s);
              Ok (upd o r (Some (firstn (length ports) s)))
  end.

(** chain.py:536-573 [transmit] and 575-611 [receive]; [fuel] stands for Python's
    recursion limit. *)
Definition transmit (fuel : nat) (c : chain) (s : signal) : result (signal * gstate) :=
  collect fuel c (dsp_origins c (ch_dspin c) s) (ch_rfout c) (mkG [] []).
Definition receive (fuel : nat) (c : chain) (s : signal) : result (signal * gstate) :=
  do o <- rf_origins c (ch_rfin c) s; collect fuel c o (ch_dspout c) (mkG [] []).
End Rf.
Arguments mkBlock {A}.
Arguments b_in {A}. Arguments b_out {A}. Arguments b_dspin {A}. Arguments b_dspout {A}. Arguments b_prop {A}.
Arguments mkChain {A}.
Arguments ch_blocks {A}. Arguments ch_inc {A}. Arguments ch_outg {A}.
Arguments ch_dspin {A}. Arguments ch_dspout {A}. Arguments ch_rfin {A}. Arguments ch_rfout {A}.
Arguments chain_new {A}. Arguments block_at {A}. Arguments add_block {A}. Arguments connected_in {A}.
Arguments connected_out {A}. Arguments connect {A}. Arguments AddBlock {A}. Arguments Connect {A}.
Arguments apply_op {A}. Arguments build {A}. Arguments open_input_ports {A}. Arguments ports_ok {A}.
Arguments mkG {A}. Arguments g_memo {A}. Arguments g_log {A}.
