(** Model of hermespy/core/signal_model.py: sparse and dense signals.

    Simplifications for the whole file
    - a matrix of samples is the list of its columns; all signals of one expression share
      sampling rate and carrier frequency, so that resampling and mixing are identities
      (signal_model.py:541-542, 613-614);
    - delays are whole multiples of the sampling interval; only the difference
      [added.delay - self.delay] in samples matters and is an integer;
    - samples are elements of a type with a zero and an addition; a test for zero
      stands for [nonzero()];
    - noise powers, visualizations and views are not modelled; the functions are pure
      except where the mutation of an argument is returned explicitly. *)
From Coq Require Import List Arith Bool ZArith.
From Verif Require Import Base.
Import ListNotations.

Section Signals.
Variable A : Type.
Variable zero : A.
Variable add : A -> A -> A.
Variable is_zero : A -> bool.
Notation col := (list A).

(** signal_model.py:395-483 [SignalBlock]: offset, number of streams, columns. *)
Record block := mkB { k_off : nat; k_ns : nat; k_cols : list col }.
Definition k_end (b : block) : nat := k_off b + length (k_cols b).
Definition zcol (ns : nat) : col := repeat zero ns.

(** A dense signal (1187-1319): number of streams and columns. *)
Record dense := mkD { d_ns : nat; d_cols : list col }.
(** A sparse signal (1598-1663) is its list of blocks. *)
Notation sparse := (list block).

(** 1692-1702 [num_samples], [num_streams] of a sparse signal. *)
Definition sp_n (s : sparse) : nat := match rev s with [] => 0 | b :: _ => k_end b end.
Definition sp_ns (s : sparse) : nat := match s with [] => 0 | b :: _ => k_ns b end.

(** Either kind of signal; 1302-1312: a dense signal is a single block at offset 0. *)
Inductive signal := Dense (d : dense) | Sparse (s : sparse).
Definition blocks (x : signal) : list block :=
  match x with
  | Dense d => [mkB 0 (d_ns d) (d_cols d)]
  | Sparse s => s
  end.
Definition num_streams (x : signal) : nat := match x with Dense d => d_ns d | Sparse s => sp_ns s end.
Definition num_samples (x : signal) : nat := match x with Dense d => length (d_cols d) | Sparse s => sp_n s end.

(** numpy's shape rules for [target[:, off:stop] (op)= b]: a single row or a single
    column is broadcast, other differences raise ValueError. *)
Definition fit_rows (ns bns : nat) (cols : list col) : result (list col) :=
  if bns =? ns then Ok cols
  else if bns =? 1 then Ok (map (fun c => repeat (hd zero c) ns) cols)
  else Raise ValueError.
Definition fit_width (w : nat) (cols : list col) : result (list col) :=
  if length cols =? w then Ok cols
  else match cols with
       | [c] => Ok (repeat c w)
       | _ => Raise ValueError
       end.
Fixpoint map2 {X Y Z} (f : X -> Y -> Z) (l1 : list X) (l2 : list Y) : list Z :=
  match l1, l2 with
  | x :: t1, y :: t2 => f x y :: map2 f t1 t2
  | _, _ => []
  end.
Definition write (f : col -> col -> col) (ns : nat) (target : list col) (off stop bns : nat) (cols : list col)
  : result (list col) :=
  do c1 <- fit_rows ns bns cols;
  do c2 <- fit_width (Nat.min (length target) stop - Nat.min (length target) off) c1;
  Ok (firstn off target ++ map2 f (slice off stop target) c2 ++ skipn (Nat.max off stop) target).
Definition overwrite (old new : col) : col := new.
Definition addcol (x y : col) : col := map2 add x y.

Fixpoint write_blocks (f : col -> col -> col) (ns shift : nat) (target : list col) (bs : list block) : result (list col) :=
  match bs with
  | [] => Ok target
  | b :: t => do target' <- write f ns target (shift + k_off b) (shift + k_end b) (k_ns b) (k_cols b);
              write_blocks f ns shift target' t
  end.

(** 1734-1740 [to_dense]. *)
Definition to_dense (s : sparse) : result dense :=
  do cols <- write_blocks overwrite (sp_ns s) 0 (repeat (zcol (sp_ns s)) (sp_n s)) s;
  Ok (mkD (sp_ns s) cols).

(** * Windows of consecutive indices *)

(** [np.ediff1d]. *)
Definition diffs (idx : list nat) : list nat := map2 (fun a b => b - a) idx (tl idx).
(** Positions at which the index list does not continue by one
    (1773-1774, 1829-1833). *)
Definition breaks (idx : list nat) : list nat :=
  map S (filter (fun i => negb (nth i (diffs idx) 0 =? 1)) (seq 0 (length (diffs idx)))).
Definition win_offsets (idx : list nat) : list nat := nth 0 idx 0 :: map (fun i => nth i idx 0) (breaks idx).
Definition win_stops (idx : list nat) : list nat :=
  map (fun i => S (nth (i - 1) idx 0)) (breaks idx) ++ [S (last idx 0)].
(** 1773-1782 and 1828-1838. *)
Definition windows (idx : list nat) : list (nat * nat) :=
  match idx with
  | [] => []
  | _ => combine (win_offsets idx) (win_stops idx)
  end.

(** 1767: a column counts as non-zero if its SUM over the streams is non-zero. *)
Definition colsum (c : col) : A := fold_left add c zero.
Definition nonzero_cols (cols : list col) : list nat :=
  filter (fun t => negb (is_zero (colsum (nth t cols [])))) (seq 0 (length cols)).

(** 1743-1796 [__from_dense]; [len(block.nonzero())] is 2 for every matrix. *)
Definition from_dense (ns : nat) (cols : list col) (offset : nat) : list block :=
  if length cols =? 0 then [mkB offset ns cols]
  else map (fun w => mkB (offset + fst w) ns (slice (fst w) (snd w) cols)) (windows (nonzero_cols cols)).

(** 1799-1838 [_getblocks_union]; [np.union1d] returns the sorted union. *)
Definition covers (b : block) (t : nat) : bool := (k_off b <=? t) && (t <? k_end b).
Definition union_idx (bs1 bs2 : list block) : list nat :=
  filter (fun t => existsb (fun b => covers b t) (bs1 ++ bs2)) (seq 0 (list_max (map k_end (bs1 ++ bs2)))).
Definition blocks_union (bs1 bs2 : list block) : list (nat * nat) := windows (union_idx bs1 bs2).

(** * Slicing *)

(** [l[a:b:step]] of a Python sequence for [0 <= a] and [0 < step]. *)
Fixpoint every (step : nat) (k : nat) (l : list col) : list col :=
  match l with
  | [] => []
  | x :: t => match k with
              | 0 => x :: every step (step - 1) t
              | S k' => every step k' t
              end
  end.
Definition stepped (a b step : nat) (l : list col) : list col := every step 0 (slice a b l).
(** Selection of streams by a list of indices or a slice. *)
Definition pick_rows (rows : list nat) (c : col) : col := map (fun i => nth i c zero) rows.

(** 2086-2112: one block under the slice [start:stop:step]; [rows] are the selected streams. *)
Definition slice_block (rows : list nat) (start stop : Z) (step : nat) (b : block) : list block :=
  let off := Z.of_nat (k_off b) in
  if (stop <=? off)%Z || (Z.of_nat (k_end b) <=? start)%Z then []
  else
    let i0 := Z.max (start - off) 0 in
    let first := (i0 + (i0 + off - start) mod Z.of_nat step)%Z in
    let end_ := Z.min (stop - off) (Z.of_nat (length (k_cols b))) in
    [mkB (Z.to_nat ((first + off - start) / Z.of_nat step)) (length rows)
         (map (pick_rows rows) (stepped (Z.to_nat first) (Z.to_nat end_) step (k_cols b)))].

(** 2040-2163 [SparseSignal.__getitem__] for a stream selection and a sample slice with
    positive step; None stands for a missing bound. *)
Definition sp_getitem (s : sparse) (rows : list nat) (start stop : option Z) (step : nat) : signal :=
  let a := match start with Some x => x | None => 0%Z end in
  let e := match stop with Some x => x | None => Z.of_nat (sp_n s) end in
  let sel := flat_map (slice_block rows a e step) s in
  match sel with
  | [b] => if k_off b =? 0 then Dense (mkD (k_ns b) (k_cols b)) else Sparse sel
  | _ => Sparse sel
  end.

(** Python's resolution of slice bounds for a sequence of length [n]. *)
Definition resolve (n : nat) (x : Z) : nat :=
  Z.to_nat (if (x <? 0)%Z then Z.max (x + Z.of_nat n) 0 else x).
(** 1354-1358: numpy slicing of a dense signal with all streams. *)
Definition dn_getitem (d : dense) (start stop : option Z) : dense :=
  let n := length (d_cols d) in
  let a := match start with Some x => resolve n x | None => 0 end in
  let e := match stop with Some x => resolve n x | None => n end in
  mkD (d_ns d) (slice a e (d_cols d)).

Definition all_streams (x : signal) : list nat := seq 0 (num_streams x).
(** [x[:, start:stop]]. *)
Definition getitem (x : signal) (start stop : option Z) : signal :=
  match x with
  | Dense d => Dense (dn_getitem d start stop)
  | Sparse s => sp_getitem s (all_streams x) start stop 1
  end.

(** * Appending *)

(** 1370-1399 [DenseSignal.append_samples]; [max] of an empty sequence raises. *)
Definition dn_append_samples (d : dense) (v : signal) : result dense :=
  match blocks v with
  | [] => Raise ValueError
  | bs =>
      let n := length (d_cols d) in
      let target := d_cols d ++ repeat (zcol (d_ns d)) (list_max (map k_end bs)) in
      do cols <- write_blocks overwrite (d_ns d) n target bs;
      Ok (mkD (d_ns d) cols)
  end.

(** 2576-2598 [SparseSignal.append_samples]. *)
Definition shift_block (k : nat) (b : block) : block := mkB (k_off b + k) (k_ns b) (k_cols b).
Definition sp_append_samples (s : sparse) (v : signal) : result sparse :=
  if sp_ns s =? num_streams v then Ok (s ++ map (shift_block (sp_n s)) (blocks v))
  else Raise ValueError.

(** 1402-1431 [DenseSignal.append_streams]: rows are appended block by block.  The
    assignment addresses [b.num_streams] rows, all streams of the block. *)
Definition put_rows (ns total : nat) (old new : col) : col :=
  firstn ns old ++ new ++ skipn (ns + length new) old.
Fixpoint put_blocks (ns total : nat) (target : list col) (bs : list block) : result (list col) :=
  match bs with
  | [] => Ok target
  | b :: t => do target' <- write (put_rows ns total) (k_ns b) target (k_off b) (k_end b) (k_ns b) (k_cols b);
              put_blocks ns total target' t
  end.
Definition dn_append_streams (d : dense) (v : signal) : result dense :=
  match blocks v with
  | [] => Raise ValueError
  | bs =>
      let extra := list_max (map k_ns bs) in
      do cols <- put_blocks (d_ns d) (d_ns d + extra) (map (fun c => c ++ zcol extra) (d_cols d)) bs;
      Ok (mkD (d_ns d + extra) cols)
  end.

(** [np.concatenate((a, b), axis=0)] (2630) needs equally many columns. *)
Definition stack (x y : dense) : result (list col) :=
  if length (d_cols x) =? length (d_cols y) then Ok (map2 (fun a b => a ++ b) (d_cols x) (d_cols y))
  else Raise ValueError.
(** [.view(np.ndarray)] of a slice (1726-1731, 2626-2627). *)
Definition as_array (x : signal) : result dense :=
  match x with
  | Dense d => Ok d
  | Sparse s => to_dense s
  end.
(** [SignalBlock(streams, samples, offset, buffer)]: the buffer must be large enough. *)
Definition new_block (off ns w : nat) (rows : nat) (cols : list col) : result block :=
  if (rows =? ns) && (length cols =? w) then Ok (mkB off ns cols) else Raise TypeError.

(** 2601-2639 [SparseSignal.append_streams]. *)
Definition sp_append_streams (s : sparse) (v : signal) : result sparse :=
  let incoming := flat_map (fun b => from_dense (k_ns b) (k_cols b) (k_off b)) (blocks v) in
  mapM (fun w =>
          do x <- as_array (getitem (Sparse s) (Some (Z.of_nat (fst w))) (Some (Z.of_nat (snd w))));
          do y <- as_array (getitem v (Some (Z.of_nat (fst w))) (Some (Z.of_nat (snd w))));
          do c <- stack x y;
          new_block (fst w) (sp_ns s + num_streams v) (snd w - fst w) (d_ns x + d_ns y) c)
       (blocks_union s incoming).

(** * Superposition *)

(** 2432-2453: add the blocks of one signal to the window [off, stop); the loop stops at the
    first block behind the window. *)
Fixpoint add_overlap (ns off stop : nat) (acc : list col) (bs : list block) : result (list col) :=
  match bs with
  | [] => Ok acc
  | b :: t =>
      if k_end b <? off then add_overlap ns off stop acc t
      else if stop <? k_off b then Ok acc
      else
        let w1 := k_off b - off in                              (* max(0, b.offset - w_off) *)
        let w2 := Nat.min (stop - off) (k_end b - off) in
        let b1 := off - k_off b in
        let b2 := Nat.min (length (k_cols b)) (stop - k_off b) in
        do acc' <- write addcol ns acc w1 w2 (k_ns b) (slice b1 b2 (k_cols b));
        add_overlap ns off stop acc' t
  end.

(** 2421-2457. *)
Definition unify (ns self_ns : nat) (s added : list block) : result sparse :=
  mapM (fun w =>
          do a1 <- add_overlap ns (fst w) (snd w) (repeat (zcol ns) (snd w - fst w)) s;
          do a2 <- add_overlap ns (fst w) (snd w) a1 added;
          new_block (fst w) self_ns (snd w - fst w) ns a2)
       (blocks_union s added).

(** 2348-2469 [SparseSignal.superimpose]; [d] is the delay of the added signal minus the own
    delay in samples.  Also returned is the added signal after the call: its blocks are
    shifted in place (2384-2385) unless it is dense, in which case the blocks are views. *)
Definition sp_superimpose (s : sparse) (added : signal) (d : Z) (streams : option (list nat))
  : result (sparse * signal) :=
  let continue (added1 after : signal) (bs : list block) :=
    let idx := match streams with None => seq 0 (num_streams added1) | Some l => l end in
    match idx with
    | [] => Ok (s, after)
    | _ =>
        if sp_ns s <=? list_max idx then Raise ValueError
        else
          do u <- unify (length idx) (sp_ns s) s bs;
          Ok (match u with [] => from_dense (sp_ns s) [] 0 | _ => u end, after)
    end in
  if (d <? 0)%Z then
    let added1 := getitem added (Some (- d)%Z) None in
    if num_samples added1 =? 0 then Ok (s, added) else continue added1 added (blocks added1)
  else if (0 <? d)%Z then
    let shifted := map (shift_block (Z.to_nat d)) (blocks added) in
    match added with
    | Dense _ => continue added added shifted
    | Sparse _ => continue (Sparse shifted) (Sparse shifted) shifted
    end
  else continue added added (blocks added).

(** 1523-1531: blocks are added to the result; a stream selection addresses rows of both. *)
Fixpoint add_blocks (ns : nat) (target : list col) (bs : list block) : result (list col) :=
  match bs with
  | [] => Ok target
  | b :: t => do target' <- write addcol ns target (k_off b) (k_end b) (k_ns b) (k_cols b);
              add_blocks ns target' t
  end.

(** 1446-1534 [DenseSignal.superimpose] without stream selection. *)
Definition dn_superimpose (self : dense) (added : signal) (d : Z) : result signal :=
  if (d_ns self =? 0) || (length (d_cols self) =? 0) then Ok added
  else
    let added1 :=
      if (d <? 0)%Z then getitem added (Some (- d)%Z) None
      else if (0 <? d)%Z then getitem added None (Some (Z.of_nat (num_samples added) - d)%Z)
      else added in
    let ns := Nat.max (d_ns self) (num_streams added1) in
    let n := Nat.max (length (d_cols self)) (num_samples added1) in
    let base := map (fun c => c ++ zcol (ns - d_ns self)) (d_cols self) ++ repeat (zcol ns) (n - length (d_cols self)) in
    do cols <- add_blocks ns base (blocks added1);
    Ok (Dense (mkD ns cols)).
End Signals.
Arguments mkB {A}. Arguments k_off {A}. Arguments k_ns {A}. Arguments k_cols {A}. Arguments k_end {A}.
Arguments mkD {A}. Arguments d_ns {A}. Arguments d_cols {A}. Arguments sp_n {A}. Arguments sp_ns {A}.
Arguments Dense {A}. Arguments Sparse {A}. Arguments blocks {A}. Arguments num_streams {A}. Arguments num_samples {A}.
