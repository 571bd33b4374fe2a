(** Evaluators of communication links.
    Models hermespy/modem/evaluators.py: BitErrorEvaluator (239-258), BlockErrorEvaluator
    (302-325), FrameErrorEvaluator (369-382), ThroughputEvaluation (406-431) and
    ThroughputEvaluator (488-500), EVMEvaluation (524-540).  Bits are booleans (the code
    works on the integers 0 and 1), durations are rationals, symbols are complex numbers. *)
From Coq Require Import List Arith Bool ZArith QArith.
From Verif Require Import Base.
Import ListNotations.
Open Scope nat_scope.

(** np.append(x, np.zeros(n - len(x))) (evaluators.py:246-252) *)
Definition pad (n : nat) (x : bits) : bits := x ++ repeat false (n - length x).

(** BitErrorEvaluator.evaluate (evaluators.py:239-258): |a - b| of two bits is their
    exclusive or *)
Definition bit_errors (tx rx : bits) : bits :=
  let n := Nat.max (length rx) (length tx) in
  map (fun '(a, b) => xorb a b) (combine (pad n tx) (pad n rx)).

(** np.mean of indicators (artifact, evaluators.py:231-233, 292-294, 361-363); the mean of
    nothing is not a number *)
Definition count (l : list bool) : nat := length (filter (fun x => x) l).
Definition mean (l : list bool) : option Q :=
  match l with
  | [] => None
  | _ => Some (inject_Z (Z.of_nat (count l)) / inject_Z (Z.of_nat (length l)))%Q
  end.

(** A frame as the evaluators see it: bits and bit_block_size *)
Record frame := mkFrame { f_bits : bits; f_block : nat }.

(** Sum of [size // bit_block_size] (evaluators.py:308-313) *)
Fixpoint count_blocks (fs : list frame) : result nat :=
  match fs with
  | [] => Ok 0
  | f :: r => if f_block f =? 0 then Raise ZeroDivisionError
              else do n <- count_blocks r; Ok (length (f_bits f) / f_block f + n)
  end.

(** [x.reshape((-1, k))], k > 0 (evaluators.py:318-319) *)
Definition reshape (f : frame) : result (list bits) :=
  if length (f_bits f) mod f_block f =? 0
  then Ok (blocks_of (length (f_bits f) / f_block f) (f_block f) (f_bits f))
  else Raise ValueError.

(** [tx_blocks != rx_blocks] of matrices with [k] and [k'] columns, numpy broadcasting, and
    [np.any(..., axis=1)] (evaluators.py:322) *)
Definition differ (a b : bits) : bool :=
  if length a =? length b then existsb (fun '(x, y) => xorb x y) (combine a b)
  else if length a =? 1 then existsb (fun y => xorb (hd false a) y) b
  else existsb (fun x => xorb x (hd false b)) a.
Definition any_ne (k k' : nat) (t r : list bits) : result (list bool) :=
  if negb ((k =? k') || (k =? 1) || (k' =? 1)) then Raise ValueError
  else if length t =? length r then Ok (map (fun '(a, b) => differ a b) (combine t r))
  else if length t =? 1 then Ok (map (differ (hd [] t)) r)
  else if length r =? 1 then Ok (map (fun a => differ a (hd [] r)) t)
  else Raise ValueError.

(** [block_errors[b : b + n] = v] (evaluators.py:322); a vector of length one is broadcast *)
Definition assign (errs : list bool) (b n : nat) (v : list bool) : result (list bool) :=
  let len := Nat.min (b + n) (length errs) - b in
  let put x := Ok (firstn b errs ++ x ++ skipn (b + len) errs) in
  if length v =? len then put v
  else if length v =? 1 then put (repeat (hd false v) len)
  else Raise ValueError.

(** The loop over zipped frames (evaluators.py:316-323) *)
Fixpoint compare_blocks (tx rx : list frame) (b : nat) (errs : list bool) {struct tx} : result (list bool) :=
  match tx, rx with
  | t :: tx', r :: rx' =>
      do tb <- reshape t;
      do rb <- reshape r;
      do v <- any_ne (f_block t) (f_block r) tb rb;
      let n := Nat.max (length tb) (length rb) in
      do errs' <- assign errs b n v;
      compare_blocks tx' rx' (b + n) errs'
  | _, _ => Ok errs
  end.

(** BlockErrorEvaluator.evaluate (evaluators.py:302-325) *)
Definition block_errors (tx rx : list frame) : result (list bool) :=
  do nt <- count_blocks tx;
  do nr <- count_blocks rx;
  compare_blocks tx rx 0 (repeat true (Nat.max nt nr)).

(** numpy.array_equiv of vectors: equal after broadcasting *)
Definition array_equiv (a b : bits) : bool :=
  if length a =? length b then forallb (fun '(x, y) => eqb x y) (combine a b)
  else if length a =? 1 then forallb (eqb (hd false a)) b
  else if length b =? 1 then forallb (fun x => eqb x (hd false b)) a
  else false.

(** FrameErrorEvaluator.evaluate (evaluators.py:369-382) *)
Fixpoint set_nth (l : list bool) (i : nat) (x : bool) : list bool :=
  match l, i with
  | [], _ => []
  | _ :: r, O => x :: r
  | y :: r, S j => y :: set_nth r j x
  end.
Fixpoint compare_frames (tx rx : list bits) (f : nat) (errs : list bool) {struct tx} : list bool :=
  match tx, rx with
  | t :: tx', r :: rx' => compare_frames tx' rx' (S f) (set_nth errs f (negb (array_equiv t r)))
  | _, _ => errs
  end.
Definition frame_errors (tx rx : list bits) : list bool :=
  compare_frames tx rx 0 (repeat true (Nat.max (length tx) (length rx))).

(** ThroughputEvaluation (evaluators.py:421-429) *)
Definition throughput_value (bits_per_frame : nat) (frame_duration : Q) (errors : list bool) : Q :=
  if (length errors <? 1) || Qle_bool frame_duration 0 then 0%Q
  else (inject_Z (Z.of_nat (count (map negb errors))) * inject_Z (Z.of_nat bits_per_frame)
        / (inject_Z (Z.of_nat (length errors)) * frame_duration))%Q.

(** ThroughputEvaluator.evaluate (evaluators.py:488-500): received frames are given with the
    duration of their signal, [total] is the duration of the whole received signal. *)
Definition throughput (tx : list bits) (rx : list (bits * Q)) (total : Q) : Q :=
  let errors := frame_errors tx (map fst rx) in
  match rx with
  | [] => throughput_value 0 total errors
  | (b, d) :: _ => throughput_value (length b) d errors
  end.
