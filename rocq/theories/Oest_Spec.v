(** Vocabulary for the transmission of OFDM frames over channels. *)
From Coq Require Import List Reals ZArith Arith Bool.
From Coquelicot Require Import Complex.
From Verif Require Import Base Cplx Grid_Model Chan_Model.
Import ListNotations.
Open Scope R_scope.

(** Index of the frequency carrying subcarrier [j], relative to the carrier frequency: subcarriers are placed symmetrically.  With DC suppression those of the
    upper half move up by one, except for the one leaving the band, which takes the freed place. *)
Definition frequency_index (dc : bool) (n os j : nat) : Z :=
  let m := (Z.of_nat j - Z.of_nat (n / 2))%Z in
  if (dc && (0 <=? m)%Z)%bool
  then if (m + 1 <? Z.of_nat (n * os - n * os / 2))%Z then (m + 1)%Z else 0%Z
  else m.
(** Response of a channel with taps [taps 0 .. taps (len - 1)] at subcarrier [j] *)
Definition response (dc : bool) (n os : nat) (taps : nat -> C) (len j : nat) : C :=
  csum (fun k => taps k * cis (- (2 * PI * (IZR (frequency_index dc n os j) / INR (n * os)) * INR k)))%C len.
(** Length of the cyclic prefix of each word of a frame *)
Definition word_prefix {A} (w : @wave A) (os : nat) (r : resource) : nat := match r_ptype r with CYCLIC => prefix_samples w os r | _ => 0%nat end.
Definition section_prefixes {A} (w : @wave A) (os : nat) (s : @section A) : list nat :=
  match s with
  | SymSec reps pat _ => concat (repeat (map (fun i => word_prefix w os (res_at w i)) pat) reps)
  | GuardSec _ => []
  | PilotSec _ => [0%nat]
  end.
Definition cyclic_prefixes {A} (w : @wave A) (os : nat) : list nat := flat_map (section_prefixes w os) (w_struct w).
(** The state does not change during the frame *)
Definition time_invariant (c : csi) : Prop := forall r t i k, (i < nsamples c)%nat -> h c r t i k = h c r t 0%nat k.
(** Frames transmitted by several antennas *)
Definition signal_of (len : nat) (frames : list (list C)) : blk := Blk (length frames) len 0 (fun t i => at0 (nth t frames []) i).
(** No pilot sections within the structure *)
Definition no_pilot_sections {A} (w : @wave A) : Prop := Forall (fun s => match s with PilotSec _ => False | _ => True end) (w_struct w).
(** Length of what is sent before a word, and the first sample of each word within the frame *)
Definition prefix_length {A} (w : @wave A) os (r : resource) : nat := if has_prefix w os r then prefix_samples w os r else 0%nat.
Local Open Scope nat_scope.
Fixpoint starts_rs {A} (w : @wave A) os (rs : list resource) (pos : nat) : list nat :=
  match rs with [] => [] | r :: t => (pos + prefix_length w os r) :: starts_rs w os t (pos + prefix_length w os r + slot w os) end.
Definition starts_sec {A} (w : @wave A) os (s : @section A) (pos : nat) : list nat :=
  match s with
  | SymSec reps pat _ => starts_rs w os (concat (repeat (map (res_at w) pat) reps)) pos
  | GuardSec _ => []
  | PilotSec _ => [pos]
  end.
Fixpoint starts {A} (w : @wave A) os (l : list (@section A)) (pos : nat) : list nat :=
  match l with [] => [] | s :: t => starts_sec w os s pos ++ starts w os t (pos + sec_samples w os s) end.
(** Length of the leading pilot *)
Definition lead {A} (w : @wave A) (os : nat) : nat := match w_pilot w with Some _ => slot w os | None => 0%nat end.
Definition word_starts {A} (w : @wave A) os : list nat := map (fun st => lead w os + st) (starts w os (w_struct w) 0).
Local Open Scope R_scope.
(** Mean of the first [m] values *)
Definition average (f : nat -> C) (m : nat) : C := (csum f m / RtoC (INR m))%C.
