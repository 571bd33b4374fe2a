(** Vocabulary for stating what a resource grid contains. *)
From Coq Require Import List Arith Bool.
From Verif Require Import Base Grid_Model.
Import ListNotations.

(** Entry [(word, subcarrier)] of a table of words. *)
Definition entry {B} (d : B) (g : list (list B)) (p : nat * nat) : B :=
  nth (snd p) (nth (fst p) g []) d.
(** [g] has exactly [words] words of [width] entries. *)
Definition shape {B} (words width : nat) (g : list (list B)) : Prop :=
  length g = words /\ Forall (fun r => length r = width) g.
(** The grid positions, word by word. *)
Definition cells (words width : nat) : list (nat * nat) :=
  list_prod (seq 0 words) (seq 0 width).
(** The positions a mask declares to be of type [ty], word by word. *)
Definition positions (ty : etype) (words width : nat) (m : list (list (option etype)))
  : list (nat * nat) :=
  filter (fun p => match entry None m p with Some t => etype_eqb t ty | None => false end)
         (cells words width).

Section S.
Context {A : Type}.
(** Every section fits into the waveform. *)
Definition fits (w : @wave A) : Prop :=
  Forall (fun s => sec_subcarriers w s <= w_sub w) (w_struct w).
(** What the constructors guarantee of pilot sections: configured elements are not
    empty, the pseudo random sequence has the requested length. *)
Definition pilots_ok (w : @wave A) : Prop :=
  (forall n, length (w_rand w n) = n) /\
  Forall (fun s => match s with PilotSec (Some []) => False | _ => True end) (w_struct w).
(** A section is a pilot section / a pilot section with configured elements. *)
Definition is_pilot (s : @section A) : bool := match s with PilotSec _ => true | _ => false end.
Definition has_elements (s : @section A) : bool :=
  match s with PilotSec (Some _) => true | _ => false end.

(** The first [n] entries of the endless repetition of [l]. *)
Definition cycled (d : A) (n : nat) (l : list A) : list A :=
  map (fun k => nth (k mod length l) l d) (seq 0 n).
(** The reference symbols expected in the sections of a frame: those of a pilot section
    are its configured elements repeated, or the pseudo random sequence; the other
    sections take the next symbols of [refs], of which a pilot section without
    configured elements skips as many as there are subcarriers. *)
Fixpoint expected_refs (d : A) (w : @wave A) (l : list section) (refs : list A) : list A :=
  match l with
  | [] => []
  | PilotSec (Some e) :: t => cycled d (w_sub w) e ++ expected_refs d w t refs
  | PilotSec None :: t => w_rand w (w_sub w) ++ expected_refs d w t (skipn (w_sub w) refs)
  | s :: t => firstn (sec_references w s) refs
              ++ expected_refs d w t (skipn (sec_references w s) refs)
  end.
(** Required for the reference symbols of a frame to be available. *)
Definition references_available (w : @wave A) : Prop :=
  w_seq w <> [] /\ (w_repeat w = true \/ references_per_frame w <= length (w_seq w)).

(** No word of the structure has a cyclic prefix longer than a symbol. *)
Definition prefixes_ok (w : @wave A) (os : nat) : Prop :=
  forall reps pat off i, In (SymSec reps pat off) (w_struct w) -> In i pat ->
    r_ptype (res_at w i) = CYCLIC -> prefix_samples w os (res_at w i) <= slot w os.
(** [x] shifted cyclically to the right by [k]. *)
Definition rotate (k : nat) (x : list A) : list A :=
  skipn (length x - k) x ++ firstn (length x - k) x.
End S.
