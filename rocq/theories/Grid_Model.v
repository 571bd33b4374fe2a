(** Model of the resource grids of orthogonal waveforms:
    hermespy/modem/waveforms/orthogonal/waveform.py and
    hermespy/modem/waveform.py:797-820.

    Symbols and samples range over an arbitrary type [A] with a [zero]; the Fourier,
    Fresnel or other transformation of a waveform is a parameter.  Numbers of
    repetitions, subcarriers and sample offsets are naturals.  Prefix ratios are
    fractions; the truncation [int(...)] is exact here, floating point rounding of
    the product is not modelled.  Resource indices of a pattern are assumed to refer
    to an existing resource (Python raises IndexError in every method otherwise). *)
From Coq Require Import List Arith Bool ZArith.
From Verif Require Import Base.
Import ListNotations.

(** waveform.py:38-49 *)
Inductive etype := REFERENCE | DATA | NULL.
(** waveform.py:52-62 *)
Inductive ptype := CYCLIC | ZEROPAD | NOPREFIX.
(** GridElement, waveform.py:65-90 *)
Record element := mkElement { e_type : etype; e_reps : nat }.
(** GridResource, waveform.py:102-171; the prefix ratio is [r_num / r_den]. *)
Record resource := mkResource
  { r_reps : nat; r_ptype : ptype; r_num : nat; r_den : nat; r_elems : list element }.

Definition etype_eqb (a b : etype) : bool :=
  match a, b with
  | REFERENCE, REFERENCE | DATA, DATA | NULL, NULL => true
  | _, _ => false
  end.
Definition is_none (p : ptype) : bool := match p with NOPREFIX => true | _ => false end.

Fixpoint sum (l : list nat) : nat := match l with [] => 0 | x :: t => x + sum t end.

(** waveform.py:173-180 *)
Definition res_subcarriers (r : resource) : nat := r_reps r * sum (map e_reps (r_elems r)).
(** waveform.py:183-202, the number of elements of one type *)
Definition res_count (ty : etype) (r : resource) : nat :=
  r_reps r * sum (map (fun e => if etype_eqb (e_type e) ty then e_reps e else 0) (r_elems r)).
(** waveform.py:205-222.  The three boolean masks are exclusive because every element
    sets its own range of subcarriers in one of them: they are kept as one list of
    types. *)
Definition res_mask (r : resource) : list etype :=
  concat (repeat (concat (map (fun e => repeat (e_type e) (e_reps e)) (r_elems r))) (r_reps r)).

Section Grid.
Context {A : Type} (zero junk : A).

(** SymbolSection 433-650 (repetitions, pattern of resource indices, sample offset),
    GuardSection 653-717 (its number of samples for the bandwidth and oversampling in
    use, [int(num_repetitions * duration * bandwidth * oversampling_factor)]),
    PilotSection 719-901 (configured pilot elements). *)
Inductive section :=
| SymSec (reps : nat) (pattern : list nat) (offset : nat)
| GuardSec (samples : nat)
| PilotSec (elements : option (list A)).

(** OrthogonalWaveform: number of subcarriers, resources, structure, leading pilot
    section (None: no leading pilot), pilot symbol sequence and whether it may be
    repeated, and the pseudo random pilot of given length (waveform.py:837-842). *)
Record wave := mkWave
  { w_sub : nat; w_res : list resource; w_struct : list section;
    w_pilot : option (option (list A)); w_seq : list A; w_repeat : bool;
    w_rand : nat -> list A }.

Definition no_resource := mkResource 0 NOPREFIX 0 1 [].
Definition res_at (w : wave) (i : nat) : resource := nth i (w_res w) no_resource.
Definition list_max0 (l : list nat) : nat := fold_right max 0 l.

(** num_symbols: 490-496, 660ff (0), 766-768 (0) *)
Definition sec_symbols (w : wave) (s : section) : nat :=
  match s with
  | SymSec reps pat _ => reps * sum (map (fun i => res_count DATA (res_at w i)) pat)
  | GuardSec _ | PilotSec _ => 0
  end.
(** num_references: 499-505, guard 0, pilot 779-782 *)
Definition sec_references (w : wave) (s : section) : nat :=
  match s with
  | SymSec reps pat _ => reps * sum (map (fun i => res_count REFERENCE (res_at w i)) pat)
  | GuardSec _ => 0
  | PilotSec (Some _) => 0
  | PilotSec None => w_sub w
  end.
(** num_words: 508-509, guard 0, pilot 771 *)
Definition sec_words (s : section) : nat :=
  match s with SymSec reps pat _ => reps * length pat | GuardSec _ => 0 | PilotSec _ => 1 end.
(** num_subcarriers: 512-518, guard 0, pilot 775 *)
Definition sec_subcarriers (w : wave) (s : section) : nat :=
  match s with
  | SymSec _ pat _ => list_max0 (map (fun i => res_subcarriers (res_at w i)) pat)
  | GuardSec _ => 0
  | PilotSec _ => w_sub w
  end.
(** resource_mask: 617-625, guard empty, pilot 785-790.  One list of subcarrier types
    per word; [None] where no mask is set. *)
Definition sec_mask (w : wave) (s : section) : list (list (option etype)) :=
  match s with
  | SymSec reps pat _ =>
      concat (repeat (map (fun i =>
        map Some (res_mask (res_at w i))
        ++ repeat None (sec_subcarriers w s - res_subcarriers (res_at w i))) pat) reps)
  | GuardSec _ => []
  | PilotSec _ => [repeat (Some REFERENCE) (w_sub w)]
  end.

(** numpy [base[sel] = vals] for a boolean selector, in memory (row-major) order *)
Fixpoint scatter (sel : list bool) (vals base : list A) : list A :=
  match sel, base with
  | true :: s, b :: bs =>
      match vals with v :: vs => v :: scatter s vs bs | [] => b :: scatter s [] bs end
  | false :: s, b :: bs => b :: scatter s vals bs
  | _, _ => base
  end.
Definition count_sel (sel : list bool) : nat := length (filter (fun b => b) sel).
(** Size mismatches raise, except that a single value is broadcast. *)
Definition masked_assign (sel : list bool) (vals base : list A) : result (list A) :=
  if length vals =? count_sel sel then Ok (scatter sel vals base)
  else match vals with
       | [v] => Ok (scatter sel (repeat v (count_sel sel)) base)
       | _ => Raise ValueError
       end.
(** numpy [base[sel]] *)
Fixpoint gather (sel : list bool) (base : list A) : list A :=
  match sel, base with
  | true :: s, b :: bs => b :: gather s bs
  | false :: s, _ :: bs => gather s bs
  | _, _ => []
  end.
(** numpy [target[a:a+n] = vals] on one axis: sizes must agree, one value is broadcast *)
Definition assign (n : nat) (vals : list A) : result (list A) :=
  if length vals =? n then Ok vals
  else match vals with [v] => Ok (repeat v n) | _ => Raise ValueError end.

Definition is_type (ty : etype) (o : option etype) : bool :=
  match o with Some t => etype_eqb t ty | None => false end.
Definition sel_of (ty : etype) (m : list (list (option etype))) : list bool :=
  map (is_type ty) (concat m).

(** ConfigurablePilotWaveform.pilot_symbols, modem/waveform.py:797-820 *)
Definition pilot_symbols (w : wave) (n : nat) : result (list A) :=
  match w_seq w with
  | [] => Raise ZeroDivisionError
  | seq0 =>
      let k := ceil_div n (length seq0) in
      if 1 <? k
      then if w_repeat w then Ok (firstn n (concat (repeat seq0 k))) else Raise RuntimeError
      else Ok (firstn n seq0)
  end.
(** PilotSection._pilot_sequence, waveform.py:822-848 *)
Definition pilot_sequence (w : wave) (e : option (list A)) (n : nat) : list A :=
  match e with
  | None => firstn n (w_rand w n)
  | Some l => firstn n (concat (repeat l (ceil_div n (length l))))
  end.

(** GridSection.place_symbols 361-379, overridden by pilot sections 851-853 *)
Definition place_symbols (w : wave) (s : section) (data refs : list A)
  : result (list (list A)) :=
  let refs := match s with PilotSec e => pilot_sequence w e (w_sub w) | _ => refs end in
  let m := sec_mask w s in
  do g <- masked_assign (sel_of REFERENCE m) refs
            (repeat zero (sec_words s * sec_subcarriers w s));
  do g <- masked_assign (sel_of DATA m) data g;
  Ok (blocks_of (sec_words s) (sec_subcarriers w s) g).

(** GridSection.pick_symbols 381-406: the selector must have the shape of the first
    [num_subcarriers] columns of the handed words. *)
Definition pick_symbols (w : wave) (s : section) (rows : list (list A)) : result (list A) :=
  let k := sec_subcarriers w s in
  if (length rows =? sec_words s) && forallb (fun r => k <=? length r) rows
  then Ok (gather (sel_of DATA (sec_mask w s)) (concat (map (firstn k) rows)))
  else Raise IndexError.

Definition num_data_symbols (w : wave) : nat := sum (map (sec_symbols w) (w_struct w)).  (* 1153-1158 *)
Definition references_per_frame (w : wave) : nat := sum (map (sec_references w) (w_struct w)). (* 1171-1178 *)
Definition symbols_per_frame (w : wave) : nat :=                                           (* 1140-1150 *)
  sum (map (fun s => sec_symbols w s + sec_references w s) (w_struct w)).
Definition words_per_frame (w : wave) : nat := sum (map sec_words (w_struct w)).            (* 1161-1168 *)

(** OrthogonalWaveform.resource_mask, 1195-1211 *)
Fixpoint masks (w : wave) (l : list section) : result (list (list (option etype))) :=
  match l with
  | [] => Ok []
  | s :: t =>
      if w_sub w <? sec_subcarriers w s then Raise ValueError
      else
        do rest <- masks w t;
        Ok (map (fun r => r ++ repeat None (w_sub w - sec_subcarriers w s)) (sec_mask w s) ++ rest)
  end.
Definition resource_mask (w : wave) : result (list (list (option etype))) := masks w (w_struct w).

(** OrthogonalWaveform.place, 1222-1258.  The words of the sections are written one
    after the other into a frame of zeros, which is the same as appending them. *)
Fixpoint place_sections (w : wave) (l : list section) (data refs : list A)
  : result (list (list A)) :=
  match l with
  | [] => Ok []
  | s :: t =>
      do g <- place_symbols w s (firstn (sec_symbols w s) data) (firstn (sec_references w s) refs);
      if w_sub w <? sec_subcarriers w s then Raise ValueError
      else
        do rest <- place_sections w t (skipn (sec_symbols w s) data)
                     (skipn (sec_references w s) refs);
        Ok (map (fun r => r ++ repeat zero (w_sub w - sec_subcarriers w s)) g ++ rest)
  end.
Definition place (w : wave) (data : list A) : result (list (list A)) :=
  do refs <- pilot_symbols w (references_per_frame w);
  if length data =? num_data_symbols w then place_sections w (w_struct w) data refs
  else Raise ValueError.

(** OrthogonalWaveform.pick, 1261-1290; one stream, the channel states are picked by
    the same function. *)
Fixpoint pick_sections (w : wave) (l : list section) (rows : list (list A)) : result (list A) :=
  match l with
  | [] => Ok []
  | s :: t =>
      do x <- pick_symbols w s (firstn (sec_words s) rows);
      do rest <- pick_sections w t (skipn (sec_words s) rows);
      Ok (x ++ rest)
  end.
Definition pick (w : wave) (rows : list (list A)) : result (list A) :=
  pick_sections w (w_struct w) rows.

(** ** Samples *)

Definition slot (w : wave) (os : nat) : nat := w_sub w * os.
(** waveform.py:538, 591, 634 *)
Definition prefix_samples (w : wave) (os : nat) (r : resource) : nat :=
  slot w os * r_num r / r_den r.
(** waveform.py:541, 594 *)
Definition has_prefix (w : wave) (os : nat) (r : resource) : bool :=
  (0 <? prefix_samples w os r) && negb (is_none (r_ptype r)).

(** num_samples: 628-637, 690, 763 *)
Definition sec_samples (w : wave) (os : nat) (s : section) : nat :=
  match s with
  | SymSec reps pat _ =>
      (length pat * slot w os + sum (map (fun i => prefix_samples w os (res_at w i)) pat)) * reps
  | GuardSec n => n
  | PilotSec _ => slot w os
  end.
(** 1181-1188 *)
Definition samples_per_frame (w : wave) (os : nat) : nat :=
  sum (map (sec_samples w os) (w_struct w))
  + match w_pilot w with Some _ => slot w os | None => 0 end.

(** One iteration of the loop of SymbolSection.place_samples, 533-563 *)
Definition place_word (w : wave) (os : nat) (r : resource) (x : list A) : result (list A) :=
  let p := prefix_samples w os r in
  if has_prefix w os r
  then match r_ptype r with
       | CYCLIC => do pre <- assign p (skipn (length x - p) x); Ok (pre ++ x)
       | ZEROPAD => Ok (repeat zero p ++ x)
       | NOPREFIX => Raise RuntimeError
       end
  else Ok x.
Fixpoint place_words (w : wave) (os : nat) (pat : list nat) (i : nat) (rows : list (list A))
  : result (list A) :=
  match rows with
  | [] => Ok []
  | x :: t =>
      do y <- place_word w os (res_at w (nth (i mod length pat) pat 0)) x;
      do ys <- place_words w os pat (S i) t;
      Ok (y ++ ys)
  end.
(** place_samples: 521-565, 694-697, 856-860.  The output buffer is allocated
    uninitialised, samples never written are [junk]. *)
Definition place_samples (w : wave) (os : nat) (s : section) (rows : list (list A))
  : result (list A) :=
  match s with
  | SymSec _ pat _ =>
      do y <- place_words w os pat 0 rows;
      if length y <=? sec_samples w os s
      then Ok (y ++ repeat junk (sec_samples w os s - length y))
      else Raise ValueError
  | GuardSec n => Ok (repeat zero n)
  | PilotSec _ => assign (slot w os) (concat rows)
  end.

(** Python [l[a:b]] for possibly negative bounds *)
Definition pyslice {B} (a b : Z) (l : list B) : list B :=
  let n := Z.of_nat (length l) in
  let norm x := Z.to_nat (if (x <? 0)%Z then Z.max 0 (x + n) else x) in
  slice (norm a) (norm b) l.

(** SymbolSection.pick_samples, 568-614; [rs] are the resources of the remaining words. *)
Fixpoint pick_words (w : wave) (os off : nat) (idx : nat) (rs : list resource) (signal : list A)
  : result (list (list A)) :=
  match rs with
  | [] => Ok []
  | r :: t =>
      let idx := if has_prefix w os r then idx + prefix_samples w os r else idx in
      do x <- assign (slot w os)
                (pyslice (Z.of_nat idx - Z.of_nat off)
                         (Z.of_nat idx + Z.of_nat (slot w os) - Z.of_nat off) signal);
      do xs <- pick_words w os off (idx + slot w os) t signal;
      Ok (x :: xs)
  end.
(** pick_samples: 568-614 ([pattern_idx = resource_idx % len(pattern)] walks through the
    repeated pattern), 700-703, 863-867 *)
Definition pick_samples (w : wave) (os : nat) (s : section) (signal : list A)
  : result (list (list A)) :=
  match s with
  | SymSec reps pat off =>
      pick_words w os off 0 (concat (repeat (map (res_at w) pat) reps)) signal
  | GuardSec _ => Ok []
  | PilotSec _ => do x <- assign (slot w os) signal; Ok [x]
  end.

(** OrthogonalWaveform.modulate, 1293-1323; [fwd] is the transformation of the waveform
    for the oversampling factor in use. *)
Fixpoint modulate_sections (w : wave) (os : nat) (l : list section) (rows : list (list A))
  : result (list A) :=
  match l with
  | [] => Ok []
  | s :: t =>
      do x <- place_samples w os s (firstn (sec_words s) rows);
      do rest <- modulate_sections w os t (skipn (sec_words s) rows);
      Ok (x ++ rest)
  end.
Definition modulate (fwd : list (list A) -> list (list A)) (w : wave) (os : nat)
  (grid : list (list A)) : result (list A) :=
  do lead <- match w_pilot w with
             | Some e => assign (slot w os) (concat (fwd [pilot_sequence w e (w_sub w)]))
             | None => Ok []
             end;
  do rest <- modulate_sections w os (w_struct w) (fwd grid);
  Ok (lead ++ rest).

(** OrthogonalWaveform.demodulate, 1326-1364.  In the correction loop 1352-1362 the
    block index stays 0: every correction is applied to the first words. *)
Fixpoint demodulate_sections (w : wave) (os : nat) (l : list section) (signal : list A)
  : result (list (list A)) :=
  match l with
  | [] => Ok []
  | s :: t =>
      do x <- pick_samples w os s (firstn (sec_samples w os s) signal);
      do rest <- demodulate_sections w os t (skipn (sec_samples w os s) signal);
      Ok (x ++ rest)
  end.
Definition sec_offset (s : section) : nat := match s with SymSec _ _ o => o | _ => 0 end.
Fixpoint correct_offsets (correct : nat -> list (list A) -> list (list A)) (l : list section)
  (grid : list (list A)) : list (list A) :=
  match l with
  | [] => grid
  | s :: t =>
      let grid := if sec_offset s =? 0 then grid
                  else correct (sec_offset s) (firstn (sec_words s) grid)
                       ++ skipn (sec_words s) grid in
      correct_offsets correct t grid
  end.
Definition demodulate (bwd : list (list A) -> list (list A))
  (correct : nat -> list (list A) -> list (list A)) (w : wave) (os : nat) (signal : list A)
  : result (list (list A)) :=
  let signal := match w_pilot w with Some _ => skipn (slot w os) signal | None => signal end in
  do rows <- demodulate_sections w os (w_struct w) signal;
  Ok (correct_offsets correct (w_struct w) (bwd rows)).

End Grid.
