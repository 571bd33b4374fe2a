(** Logarithmic numbers.
    Models hermespy/core/logarithmic.py (32-368) and db2lin, lin2db of hermespy/tools/math.py
    (36-81) with exact real arithmetic.  [lin2db] of a number that is not positive is not a
    number in the code; [Rlog] is arbitrary there and no theorem looks at it. *)
From Coq Require Import Reals List Arith Bool.
From Verif Require Import Base.
Import ListNotations.
Open Scope R_scope.

Inductive conversion := Power | Amplitude.
Definition factor (c : conversion) : R := match c with Power => 10 | Amplitude => 20 end.
(** tools/math.py:36-57, 61-81 *)
Definition db2lin (x : R) (c : conversion) : R := Rpower 10 (x / factor c).
Definition lin2db (x : R) (c : conversion) : R := factor c * (ln x / ln 10).

(** Logarithmic: the float itself, its decibel value and conversion *)
Record log := mkLog { l_lin : R; l_db : R; l_conv : conversion }.

Inductive value_type := Lin | Db.
(** Logarithmic.__new__ and __init__ (logarithmic.py:38-107) *)
Definition make_log (value : R) (t : value_type) (c : conversion) : result log :=
  let lin := match t with Lin => value | Db => db2lin value c end in
  let db := match t with Lin => lin2db value c | Db => value end in
  if Rle_dec lin 0 then Raise ValueError else Ok (mkLog lin db c).
(** From_Tuple (logarithmic.py:109-128), also the reconstruction after pickling (242-250) *)
Definition from_tuple (lin db : R) (c : conversion) : result log :=
  if Rle_dec lin 0 then Raise ValueError else Ok (mkLog lin db c).
Definition pickle (x : log) : result log := from_tuple (l_lin x) (l_db x) (l_conv x).

(** Arithmetic of two logarithmic numbers (logarithmic.py:148-218); division by zero cannot
    occur, logarithmic numbers are positive. *)
Definition add (x y : log) : result log := make_log (l_lin x + l_lin y) Lin (l_conv x).
Definition sub (x y : log) : result log := make_log (l_lin x - l_lin y) Lin (l_conv x).
Definition mul (x y : log) : result log := make_log (l_lin x * l_lin y) Lin (l_conv x).
Definition div (x y : log) : result log := make_log (l_lin x / l_lin y) Lin (l_conv x).
(** Arithmetic with plain numbers returns plain numbers *)
Definition mul_float (x : log) (y : R) : R := l_lin x * y.

(** LogarithmicSequence: array content, decibel values kept beside it, conversion *)
Record seqn := mkSeq { s_lin : list R; s_db : list R; s_conv : conversion }.

(** __array_finalize__ (logarithmic.py:298-317): [c] is the conversion of the instance the
    array is derived from, power if that is a plain array *)
Definition finalize (lin : list R) (c : conversion) : seqn := mkSeq lin (map (fun x => lin2db x c) lin) c.
(** __new__ (logarithmic.py:259-296): the view is finalized before the conversion is stored *)
Definition make_seq (values : list R) (t : value_type) (c : conversion) : seqn :=
  let lin := match t with Lin => values | Db => map (fun x => db2lin x c) values end in
  let cast := finalize lin Power in
  mkSeq (s_lin cast) (s_db cast) c.
(** Slicing [seq[a:b]] (logarithmic.py:341-347): a view, finalized from this sequence *)
Definition slice_seq (a b : nat) (s : seqn) : seqn := finalize (slice a b (s_lin s)) (s_conv s).
(** __getitem__ with an index (logarithmic.py:341-347) and tolist (329-338) *)
Definition get (s : seqn) (i : nat) : result log :=
  match nth_error (s_lin s) i, nth_error (s_db s) i with
  | Some x, Some d => from_tuple x d (s_conv s)
  | _, _ => Raise IndexError
  end.
Fixpoint set_nth (l : list R) (i : nat) (x : R) : list R :=
  match l, i with
  | [], _ => []
  | _ :: r, O => x :: r
  | y :: r, S j => y :: set_nth r j x
  end.
(** __setitem__ (logarithmic.py:350-358) with a logarithmic number or a plain one *)
Inductive item := ItemLog (x : log) | ItemNumber (x : R).
Definition set_item (s : seqn) (i : nat) (v : item) : result seqn :=
  if (i <? length (s_lin s))%nat then
    match v with
    | ItemLog x => Ok (mkSeq (set_nth (s_lin s) i (l_lin x)) (set_nth (s_db s) i (l_db x)) (s_conv s))
    | ItemNumber x => Ok (mkSeq (set_nth (s_lin s) i x) (set_nth (s_db s) i (lin2db x (s_conv s))) (s_conv s))
    end
  else Raise IndexError.
(** numpy's in-place operators ([seq *= k]) write the array and call neither __setitem__ nor
    __array_finalize__ *)
Definition scale_in_place (k : R) (s : seqn) : seqn := mkSeq (map (fun x => x * k) (s_lin s)) (s_db s) (s_conv s).
(** [seq * k]: a new array finalized from this sequence *)
Definition scaled (k : R) (s : seqn) : seqn := finalize (map (fun x => x * k) (s_lin s)) (s_conv s).
(** Pickling (logarithmic.py:360-368) *)
Definition pickle_seq (s : seqn) : seqn := make_seq (s_lin s) Lin (s_conv s).
