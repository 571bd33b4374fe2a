(** 5G NR waveforms and links: hermespy/modem/waveforms/ieee_5gnr.py (cited as [nr]) and hermespy/modem/ieee_5gnr.py (cited as [link]).
    Simplifications: symbols range over an arbitrary type; numbers of subcarriers are integers, the products with 0.5 are exact because 12 divides them; the prefix
    ratio is 7/100 (the double nearest to 0.07 is slightly larger, so that [int] of its products with integers is the same); bandwidths are exact. *)
From Coq Require Import List Arith Bool ZArith QArith.
From Verif Require Import Base Grid_Model.
Import ListNotations.
Local Open Scope nat_scope.

(** nr 32-38 *)
Definition rb_subcarriers := 12.
Definition symbols_per_slot := 14.
Definition subframes_per_frame := 10.
(** nr 41-53 *)
Definition subcarrier_spacing (mu : Z) : result Z := if (mu <? 0)%Z || (6 <? mu)%Z then Raise ValueError else Ok (15000 * 2 ^ mu)%Z.
(** nr 56-67 *)
Definition bandwidth (mu : Z) (rb : Z) : result Z := do s <- subcarrier_spacing mu; Ok (s * 12 * rb)%Z.

(** * Sequences *)
(** nr 86-89, 122-132: seven initial bits, then sums of the bits [a] and 7 places before *)
Fixpoint extend (a : nat) (x : list nat) (n : nat) : list nat :=
  match n with O => x | S n' => extend a (x ++ [(nth (length x - a) x 0 + nth (length x - 7) x 0) mod 2]) n' end.
(** nr 74-97 PSS._pilot_sequence: 127 symbols whatever is asked for *)
Definition pss_bits : list nat := extend 3 [1; 1; 1; 0; 1; 1; 0] 120.
Definition pss : list Z := map (fun n => (1 - 2 * Z.of_nat (nth ((n + 43 * 0) mod 127)%nat pss_bits 0%nat))%Z) (seq 0 127).
(** nr 104-140 SSS._pilot_sequence: a product of floating point numbers, whose 8 bytes each are viewed as numbers of 16 bytes *)
Definition view_complex (x : list Z) : result (list (Z * Z)) :=
  if Nat.even (length x) then Ok (map (fun k => (nth (2 * k) x 0%Z, nth (2 * k + 1) x 0%Z)) (seq 0 (length x / 2))) else Raise ValueError.
Definition sss : result (list (Z * Z)) :=
  let x0 := extend 3 [0; 0; 0; 0; 0; 0; 1] 120 in
  let x1 := extend 6 [0; 0; 0; 0; 0; 0; 1] 120 in
  view_complex (map (fun n => ((1 - 2 * Z.of_nat (nth n x0 0%nat) * Z.of_nat ((n + 0) mod 127)%nat) * (1 - 2 * Z.of_nat (nth n x1 0%nat) * Z.of_nat ((n + 0) mod 127)%nat))%Z) (seq 0 127)).

(** * Resources *)
(** nr 151-165, 168-182: elements of the words that carry synchronization sequences; repetitions may be negative *)
Definition sync_elements (n : Z) : list (etype * Z) := [(NULL, n / 2 - 64); (REFERENCE, 127); (NULL, n / 2 - 63)]%Z.
(** nr 185-202: elements of the other words *)
Definition pbch_elements : list (etype * Z) := [(REFERENCE, 1); (DATA, 3); (REFERENCE, 1); (DATA, 3); (REFERENCE, 1); (DATA, 3)]%Z.
(** orthogonal/waveform.py 172-180, 182-202 *)
Definition z_subcarriers (reps : Z) (l : list (etype * Z)) : Z := (reps * fold_left (fun s e => s + snd e) l 0)%Z.
Definition z_count (ty : etype) (reps : Z) (l : list (etype * Z)) : Z := (reps * fold_left (fun s e => if etype_eqb (fst e) ty then s + snd e else s) l 0)%Z.
(** orthogonal/waveform.py 205-222, the row of one type: bounds of slices are clipped and negative ones count from the end *)
Definition clip (n : nat) (x : Z) : nat := Nat.min n (Z.to_nat (if (x <? 0)%Z then x + Z.of_nat n else x)).
Definition set_slice (a b : nat) (m : list bool) : list bool := map (fun k => if (a <=? k) && (k <? b) then true else nth k m false) (seq 0 (length m)).
Fixpoint mask_row (ty : etype) (l : list (etype * Z)) (pos : Z) (m : list bool) : list bool * Z :=
  match l with
  | [] => (m, pos)
  | (t, r) :: l' => mask_row ty l' (pos + r)%Z (if etype_eqb t ty then set_slice (clip (length m) pos) (clip (length m) (pos + r)) m else m)
  end.
Definition z_mask (ty : etype) (reps : nat) (l : list (etype * Z)) : list bool :=
  let n := Z.to_nat (z_subcarriers (Z.of_nat reps) l) in
  let '(m, pos) := mask_row ty l 0 (repeat false n) in
  concat (repeat (firstn (clip n pos) m) reps).

(** * Waveforms *)
Section Waves.
Context {A : Type}.
(** The resources 216-218 (296-298), for numbers of resource blocks that leave room for the sequences *)
Definition as_resource (reps : nat) (l : list (etype * Z)) : resource := mkResource reps CYCLIC 7 100 (map (fun e => mkElement (fst e) (Z.to_nat (snd e))) l).
Definition resources (rb : nat) : list resource :=
  let n := Z.of_nat (rb * rb_subcarriers) in [as_resource 1 (sync_elements n); as_resource 1 (sync_elements n); as_resource rb pbch_elements].
(** The structures 222-227 and 302-307 *)
Definition structure (words : nat) : list (@section A) := [SymSec 1 [0] 0; SymSec 1 [2] 0; SymSec 1 [1] 0; SymSec (words - 3) [2] 0].
(** A waveform without leading pilot section, as initialized by 229-235, 309-315 *)
Definition waveform (rb : nat) (s : list section) (pilots : list A) (repeated : bool) (rand : nat -> list A) : wave :=
  mkWave (rb * rb_subcarriers) (resources rb) s None pilots repeated rand.
(** nr 204-235 *)
Definition slot_wave (rb : nat) := waveform rb (structure symbols_per_slot).
(** nr 279-315 *)
Definition subframe_wave (mu rb : nat) := waveform rb (structure (2 ^ mu * symbols_per_slot)).
(** nr 349-355 *)
Definition frame_wave (mu rb : nat) := waveform rb (concat (repeat (structure (2 ^ mu * symbols_per_slot)) subframes_per_frame)).
(** orthogonal/waveform.py 1191-1192 *)
Definition duration (w : @wave A) (b : Q) : Q := (inject_Z (Z.of_nat (samples_per_frame w 1)) / b)%Q.

(** orthogonal/waveform.py 361-379 for the first word of a waveform with few resource blocks: [refs] are written to the places of the mask of references *)
Definition place_sync_word (zero : A) (rb : nat) (refs : list A) : result (list A) :=
  let n := Z.of_nat (rb * rb_subcarriers) in
  masked_assign (z_mask REFERENCE 1 (sync_elements n)) (firstn (Z.to_nat (z_count REFERENCE 1 (sync_elements n))) refs) (repeat zero (Z.to_nat (z_subcarriers 1 (sync_elements n)))).
(** orthogonal/waveform.py 851-853, 869-891 with orthogonal/ofdm.py 98-130: a pilot section of a waveform with [n] subcarriers, in a frame and in front of it;
    only sizes matter *)
Definition place_pilot_word (zero : A) (n : nat) (s : list A) : result (list A) := masked_assign (repeat true n) s (repeat zero n).
Definition generate_pilot (n : nat) (s : list A) : result (list A) := assign n s.
End Waves.

(** Which constructions raise: orthogonal/waveform.py 150-151, 316-317 (with 2**numerology a float for negative numerologies), 1114-1115 *)
Definition construct (mu rb : Z) : result unit :=
  if (rb <? 1)%Z then Raise ValueError
  else if (mu <? 0)%Z && (14 <? (1 + 3) * 2 ^ (- mu))%Z then Raise ValueError
  else Ok tt.

(** * Serialization *)
(** What distinguishes 5G NR waveforms: numerology, resource blocks, modulation order and the chosen synchronization, estimation and equalization *)
Record config := Config { c_numerology : nat; c_blocks : nat; c_order : nat; c_synchronization : nat; c_estimation : nat; c_equalization : nat }.
(** The constructor (279-315; modem/waveform.py 256-265 for the default order, [0] are the default algorithms) *)
Definition fresh (mu rb : nat) : config := Config mu rb 16 0 0 0.
(** nr 327-339 (244-254 without numerology): subcarriers are a multiple of twelve *)
Definition reload (c : config) : config := fresh (c_numerology c) (c_blocks c * rb_subcarriers / rb_subcarriers).
(** link 114-125: the truth value of arrays with several entries is not defined; that of an empty one is false (or, in recent numpy, not defined either) *)
Definition reload_ports (p : option (list nat)) : result (option (list nat)) :=
  match p with
  | None => Ok None
  | Some [] => Ok None
  | Some [q] => Ok (if q =? 0 then None else Some [q])
  | Some _ => Raise ValueError
  end.
(** link 85-90, 112-130: a link has a waveform with estimation 1 (least squares) and equalization 1 (zero forcing) and port selections *)
Definition fresh_link (rb : nat) : config := Config 0 rb 16 0 1 1.
Definition reload_link (c : config) (tx rx : option (list nat)) : result (config * option (list nat) * option (list nat)) :=
  do t <- reload_ports tx; do r <- reload_ports rx; Ok (fresh_link (c_blocks c * rb_subcarriers / rb_subcarriers), t, r).
