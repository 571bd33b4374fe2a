(** Symbol mapping and detection.
    Models hermespy/modem/tools/psk_qam_mapping.py (20-524) with exact real arithmetic.
    Bits are booleans; complex numbers are pairs of reals.  numpy's operations on arrays with
    bits in rows and symbols in columns are modelled as operations on each column.
    Not modelled: serialization (527-538). *)
From Coq Require Import Reals List Arith Bool.
From Verif Require Import Base.
Import ListNotations.
Open Scope R_scope.

Definition cplx := (R * R)%type.
Definition b2r (b : bool) : R := if b then 1 else 0.
Definition rle (x y : R) : bool := if Rle_dec x y then true else false.
Definition rgt (x y : R) : bool := negb (rle x y).
Definition ind (b : bool) : R := if b then 1 else 0.
Definition both (x lo hi : R) : bool := rgt x lo && rle x hi.

Definition abs2 (z : cplx) : R := fst z * fst z + snd z * snd z.
Definition csub (y z : cplx) : cplx := (fst y - fst z, snd y - snd z).

(** generate_pam_symbol_3gpp (psk_qam_mapping.py:262-298) for one column *)
Definition pam (order : nat) (bits : list bool) : result R :=
  let b i := b2r (nth i bits false) in
  match order with
  | 2%nat => Ok (1 - 2 * b 0%nat)
  | 4%nat => Ok ((1 - 2 * b 0%nat) * (1 + 2 * b 1%nat))
  | 8%nat => Ok ((2 * b 0%nat - 1) * ((1 - 2 * b 1%nat) * (1 + 2 * b 2%nat) - 4))
  | 16%nat => Ok ((((1 - 2 * b 2%nat) * (1 + 2 * b 3%nat) - 4) * (-1 + 2 * b 1%nat) - 8) * (-1 + 2 * b 0%nat))
  | _ => Raise ValueError
  end.

(** mapping_available, mapping_available_pam (31-34) *)
Definition mapping_available : list nat := [2; 4; 8; 16; 64; 64; 256]%nat.
Definition mapping_available_pam : list nat := [2; 4; 8; 16]%nat.
Definition listed (n : nat) (l : list nat) : bool := existsb (Nat.eqb n) l.
(** _psk8_map (37-39) *)
Definition psk8_phases : list R := [0; 1 / 4; 3 / 4; 1 / 2; - (1 / 4); - (1 / 2); 1; - (3 / 4)].
Definition psk8_map : list cplx := map (fun a => (cos (a * PI), sin (a * PI))) psk8_phases.

Record mapper := mkMapper { order : nat; bps : nat; is_complex : bool; mapping : option (list cplx); soft_output : bool }.

Definition sum_list (l : list R) : R := fold_right Rplus 0 l.
(** Normalisation of constellations (98-100); constellations without energy are divided by zero *)
Definition energy (l : list cplx) : R := sum_list (map abs2 l) / INR (length l).
Definition normalized (l : list cplx) : list cplx := map (fun z => (fst z / sqrt (energy l), snd z / sqrt (energy l))) l.

(** __init__ (41-102) *)
Definition make_mapper (ord : nat) (map_ : option (list cplx)) (soft cx : bool) : result mapper :=
  if ((ord =? 0) || negb (Nat.land ord (ord - 1) =? 0))%nat then Raise ValueError
  else if cx && negb (listed ord mapping_available) && match map_ with None => true | _ => false end then Raise ValueError
  else if negb cx && negb (listed ord mapping_available_pam) && match map_ with None => true | _ => false end then Raise ValueError
  else if match map_ with Some l => negb (length l =? ord)%nat | None => false end then Raise ValueError
  else
    let m := match map_ with
             | None => if (ord =? 8)%nat && cx then Some psk8_map else None
             | Some l => Some (normalized l)
             end in
    Ok (mkMapper ord (Nat.log2 ord) cx m soft).

(** Value of the bits of a symbol, most significant bit first (127-128) *)
Definition value (bits : list bool) : nat := fold_left (fun a (b : bool) => (2 * a + (if b then 1 else 0))%nat) bits 0%nat.

(** Rows [[0, 2, ...]] and [[1, 3, ...]] of a column (150-162) *)
Fixpoint evens {A} (l : list A) : list A :=
  match l with x :: _ :: r => x :: evens r | [x] => [x] | [] => [] end.
Definition odds {A} (l : list A) : list A := evens (tl l).

Definition real_symbol (o : nat) (norm : R) (b : list bool) : result cplx :=
  do p <- pam o b; Ok (p / norm, 0).
Definition qam_symbol (o : nat) (norm : R) (b : list bool) : result cplx :=
  do p <- pam o (evens b); do q <- pam o (odds b); Ok (p / norm, q / norm).

(** get_symbols (104-169) for the column of one symbol *)
Definition symbol (m : mapper) (b : list bool) : result cplx :=
  match mapping m with
  | Some l => match nth_error l (value b) with Some z => Ok z | None => Raise IndexError end
  | None =>
      match order m, is_complex m with
      | 2%nat, _ => do p <- pam 2 b; Ok (p, 0)
      | 4%nat, true => qam_symbol 2 (sqrt 2) b
      | 4%nat, false => real_symbol 4 (sqrt 5) b
      | 8%nat, false => real_symbol 8 (sqrt 21) b
      | 16%nat, true => qam_symbol 4 (sqrt 10) b
      | 16%nat, false => real_symbol 16 (sqrt 85) b
      | 64%nat, true => qam_symbol 8 (sqrt 42) b
      | 256%nat, true => qam_symbol 16 (sqrt 170) b
      | _, _ => Raise RuntimeError
      end
  end.
Definition get_symbols (m : mapper) (bits : list bool) : result (list cplx) :=
  if (bps m =? 0)%nat then Raise ZeroDivisionError
  else
    let n := (length bits / bps m)%nat in
    if negb (n * bps m =? length bits)%nat then Raise ValueError
    else mapM (symbol m) (blocks_of n (bps m) bits).

(** get_llr_3gpp (301-497) for one received value [r]; the rows of one column *)
Definition llr2 (x : R) : list R := [-2 * x].
Definition llr4 (x : R) : list R :=
  [ 2 * (ind (rle x (-2)) * (-4 * (1 + x)) + ind (both x (-2) 2) * (-2 * x) + ind (rgt x 2) * (4 * (1 - x)));
    2 * (ind (rle x 0) * (-2 * (2 + x)) + ind (rgt x 0) * (-2 * (2 - x))) ].
Definition llr8 (x : R) : list R :=
  [ 4 * (ind (rle x (-6)) * (-4 * (3 + x)) + ind (both x (-6) (-4)) * (-3 * (2 + x)) + ind (both x (-4) (-2)) * (-2 * (1 + x))
         + ind (both x (-2) 2) * (- x) + ind (both x 2 4) * (2 * (1 - x)) + ind (both x 4 6) * (3 * (2 - x)) + ind (rgt x 6) * (4 * (3 - x)));
    4 * (ind (rle x (-6)) * (-2 * (5 + x)) + ind (both x (-6) (-2)) * (- (4 + x)) + ind (both x (-2) 0) * (-2 * (3 + x))
         + ind (both x 0 2) * (-2 * (3 - x)) + ind (both x 2 6) * (- (4 - x)) + ind (rgt x 6) * (-2 * (5 - x)));
    4 * (ind (rle x (-4)) * (- (6 + x)) + ind (both x (-4) 0) * (2 + x) + ind (both x 0 4) * (2 - x) + ind (rgt x 4) * (- (6 - x))) ].
Definition llr16 (x : R) : list R :=
  [ 8 * (ind (rle x (-14)) * (-4 * (7 + x))
         - ind (both x (-14) (-12)) * (7 / 2) * (6 + x) - ind (both x (-12) (-10)) * 3 * (5 + x)
         - ind (both x (-10) (-8)) * (5 / 2) * (4 + x) - ind (both x (-8) (-6)) * 2 * (3 + x)
         - ind (both x (-6) (-4)) * (3 / 2) * (2 + x) - ind (both x (-4) (-2)) * (1 + x)
         - ind (both x (-2) 2) * (1 / 2) * x + ind (both x 2 4) * (1 - x)
         + ind (both x 4 6) * (3 / 2) * (2 - x) + ind (both x 6 8) * 2 * (3 - x)
         + ind (both x 8 10) * (5 / 2) * (4 - x) + ind (both x 10 12) * 3 * (5 - x)
         + ind (both x 12 14) * (7 / 2) * (6 - x) + ind (rgt x 14) * 4 * (7 - x));
    8 * (ind (rle x (-14)) * (-2 * (11 + x))
         - ind (both x (-14) (-12)) * (3 / 2) * (10 + x) - ind (both x (-12) (-10)) * (9 + x)
         - ind (both x (-10) (-6)) * (1 / 2) * (8 + x) - ind (both x (-6) (-4)) * (7 + x)
         - ind (both x (-4) (-2)) * (3 / 2) * (6 + x) - ind (both x (-2) 0) * 2 * (5 + x)
         - ind (both x 0 2) * 2 * (5 - x) - ind (both x 2 4) * (3 / 2) * (6 - x)
         - ind (both x 4 6) * (7 - x) - ind (both x 6 10) * (1 / 2) * (8 - x)
         - ind (both x 10 12) * (9 - x) - ind (both x 12 14) * (3 / 2) * (10 - x) - ind (rgt x 14) * 2 * (11 - x));
    8 * (ind (rle x (-14)) * (-13 - x)
         - ind (both x (-14) (-10)) * (1 / 2) * (12 + x) - ind (both x (-10) (-8)) * (11 + x)
         + ind (both x (-8) (-6)) * (5 + x) + ind (both x (-6) (-2)) * (1 / 2) * (4 + x)
         + ind (both x (-2) 0) * (3 + x) + ind (both x 0 2) * (3 - x)
         + ind (both x 2 6) * (1 / 2) * (4 - x) + ind (both x 6 8) * (5 - x)
         - ind (both x 8 10) * (11 - x) - ind (both x 10 14) * (1 / 2) * (12 - x) - ind (rgt x 14) * (13 - x));
    8 * (ind (rle x (-12)) * (- (1 / 2) * (14 + x))
         + ind (both x (-12) (-8)) * (1 / 2) * (10 + x) - ind (both x (-8) (-4)) * (1 / 2) * (6 + x)
         + ind (both x (-4) 0) * (1 / 2) * (2 + x) + ind (both x 0 4) * (1 / 2) * (2 - x)
         - ind (both x 4 8) * (1 / 2) * (6 - x) + ind (both x 8 12) * (1 / 2) * (10 - x) - ind (rgt x 12) * (1 / 2) * (14 - x)) ].
Definition llr (o : nat) (r nv : R) (cx : bool) : result (list R) :=
  let x := if cx then r * sqrt 2 else r in
  do l <- match o with
          | 2%nat => Ok (map (fun v => v / nv) (llr2 x))
          | 4%nat => Ok (map (fun v => v / nv / 5) (llr4 (x * sqrt 5)))
          | 8%nat => Ok (map (fun v => v / nv / 21) (llr8 (x * sqrt 21)))
          | 16%nat => Ok (map (fun v => v / nv / 85) (llr16 (x * sqrt 85)))
          | _ => Raise ValueError
          end;
  Ok (if cx then map (fun v => v / 2) l else l).

(** Assignments [llr[0::2] = a; llr[1::2] = b] to an array of the joint length *)
Fixpoint interleave {A} (a b : list A) : list A :=
  match a, b with x :: a', y :: b' => x :: y :: interleave a' b' | _, _ => [] end.

(** All received values, one noise variance each (193-197: a single variance is repeated) *)
Definition llrs (o : nat) (rs : list R) (nvs : list R) (cx : bool) : result (list R) :=
  do l <- mapM (fun p => llr o (fst p) (snd p) cx) (combine rs nvs); Ok (concat l).

(** Index of the first of the closest points (205-206) *)
Definition distance (y s : cplx) : R := sqrt (abs2 (csub y s)).
Fixpoint argmin_from (y : cplx) (l : list cplx) (k best : nat) (d : R) : nat :=
  match l with
  | [] => best
  | s :: r => if Rlt_dec (distance y s) d then argmin_from y r (S k) k (distance y s) else argmin_from y r (S k) best d
  end.
Definition argmin (y : cplx) (l : list cplx) : nat :=
  match l with [] => 0%nat | s :: r => argmin_from y r 1 0 (distance y s) end.
(** The loop over bit offsets (208-212): each pass also rescales all values written before *)
Definition detect_point (bpsym : nat) (index : nat) : list R :=
  fold_left (fun l off => map (fun v => v * 2 - 1)
       (firstn off l ++ ind (negb (Nat.land index (2 ^ (bpsym - off - 1)) =? 0)%nat) :: skipn (S off) l))
    (seq 0 bpsym) (repeat 0 bpsym).

(** detect_bits before the final decision (190-256) *)
Definition soft_values (m : mapper) (rx : list cplx) (nvs : list R) : result (list R) :=
  match mapping m with
  | Some l => if soft_output m then Raise RuntimeError else Ok (flat_map (fun y => detect_point (bps m) (argmin y l)) rx)
  | None =>
      let real_ o := llrs o (map fst rx) nvs false in
      let qam o := do a <- llrs o (map fst rx) nvs true; do b <- llrs o (map snd rx) nvs true; Ok (interleave a b) in
      match order m, is_complex m with
      | 2%nat, _ => real_ 2%nat
      | 4%nat, true => qam 2%nat
      | 4%nat, false => real_ 4%nat
      | 8%nat, false => real_ 8%nat
      | 16%nat, false => real_ 16%nat
      | 16%nat, true => qam 4%nat
      | 64%nat, true => qam 8%nat
      | 256%nat, true => qam 16%nat
      | _, _ => Raise RuntimeError
      end
  end.
(** detect_bits (171-259) *)
Inductive detection := Soft (l : list R) | Hard (l : list bool).
Definition detect_bits (m : mapper) (rx : list cplx) (nvs : list R) : result detection :=
  do l <- soft_values m rx nvs;
  Ok (if soft_output m then Soft l else Hard (map (fun v => rgt v 0) l)).

(** get_mapping (499-524) *)
Definition bits_of (n k : nat) : list bool := map (fun i => negb (Nat.land k (2 ^ (n - 1 - i)) =? 0)%nat) (seq 0 n).
Definition get_mapping (m : mapper) : result (list cplx) :=
  match mapping m with
  | Some l => Ok l
  | None => get_symbols m (flat_map (bits_of (bps m)) (seq 0 (order m)))
  end.
