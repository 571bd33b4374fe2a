(** Pilots of orthogonal waveforms and Schmidl-Cox synchronization: PilotSection in hermespy/modem/waveforms/orthogonal/waveform.py (cited by line as wav), SchmidlCoxPilotSection and
    SchmidlCoxSynchronization in hermespy/modem/waveforms/orthogonal/ofdm.py (ofdm).
    Simplifications: samples are complex numbers with exact arithmetic; of the waveform only the number of subcarriers, the suppression of DC and the pseudo-random symbols of its mapping are known; 0.9 times
    the length of a frame is rounded down exactly; the peaks of scipy are those of Sync_Model. *)
From Coq Require Import List Reals Bool Arith ZArith.
From Coquelicot Require Import Complex.
From Verif Require Import Base Cplx Ofdm_Model Sync_Model.
Import ListNotations.
Local Open Scope nat_scope.

(** * Pilot sections *)
(** Symbols handed over as pilot elements: number of streams, of symbols per block, and all symbols flattened (raw.flat) *)
Record elements := mkElements { num_streams : nat; num_symbols : nat; flat : list C }.
(** The waveform: subcarriers, suppression of DC and the first [n] symbols the mapping generates from seed 50, wav 837-842 *)
Record wave := mkWave { subcarriers : nat; suppress : bool; pseudo_random : nat -> list C }.
(** A section, plain or Schmidl-Cox, with its elements, its waveform and the cached pilot with the number of subcarriers and the oversampling it was generated for, wav 722-746 *)
Record pilot := mkPilot { schmidl_cox : bool; given : option elements; carrier : option wave; cached : option (nat * nat * list C) }.
(** wav 727-746: nothing is checked *)
Definition new_pilot (sc : bool) (e : option elements) (w : option wave) : pilot := mkPilot sc e w None.
(** wav 805-820: without elements the cache is not reset *)
Definition set_elements (p : pilot) (e : option elements) : result pilot :=
  match e with
  | None => Ok (mkPilot (schmidl_cox p) None (carrier p) (cached p))
  | Some v => if negb (num_streams v =? 1) then Raise ValueError else if num_symbols v <? 1 then Raise ValueError
              else Ok (mkPilot (schmidl_cox p) (Some v) (carrier p) None)
  end.
(** The waveform or its settings are changed by others, wav 1059-1065 *)
Definition set_wave (p : pilot) (w : option wave) : pilot := mkPilot (schmidl_cox p) (given p) w (cached p).
(** PilotSection._pilot_sequence, wav 822-848 *)
Definition sequence (e : option elements) (w : wave) (n : nat) : result (list C) :=
  match e with
  | None => Ok (firstn n (pseudo_random w n))
  | Some v => if num_symbols v =? 0 then Raise ZeroDivisionError else Ok (firstn n (concat (repeat (flat v) (ceil_div n (num_symbols v)))))
  end.
(** [zeros(n)[::2] = l] for the numbers of symbols of line ofdm 196; fewer symbols than places raise, unless there is exactly one *)
Definition stuffed (n : nat) (l : list C) : list C := tab n (fun i => if Nat.even i then at0 l (i / 2) else RtoC 0).
Definition stuff (n : nat) (l : list C) : result (list C) :=
  if length l =? ceil_div n 2 then Ok (stuffed n l) else if length l =? 1 then Ok (stuffed n (repeat (at0 l 0) (ceil_div n 2))) else Raise ValueError.
(** [x[:k] = np.roll(x[:k], 1)] *)
Definition roll_head_right (k : nat) (x : list C) : list C := roll_right 1 (firstn k x) ++ skipn k x.
(** SchmidlCoxPilotSection._pilot_sequence, ofdm 190-204 *)
Definition stuffed_sequence (e : option elements) (w : wave) : result (list C) :=
  do l <- sequence e w (ceil_div (subcarriers w) 2);
  do x <- stuff (subcarriers w) l;
  Ok (if suppress w then roll_head_right (subcarriers w / 2) x else x).
Definition pilot_symbols (p : pilot) (w : wave) : result (list C) :=
  if schmidl_cox p then stuffed_sequence (given p) w else sequence (given p) w (subcarriers w).
(** wav 883-884: a pilot is generated from scratch *)
Definition fresh (p : pilot) (w : wave) (os : nat) : result (list C) :=
  do x <- pilot_symbols p w; Ok (ofdm_forward_word (suppress w) (subcarriers w) os x).
(** wav 869-891 *)
Definition generate (p : pilot) (os : nat) : result (list C) * pilot :=
  match carrier p with
  | None => (Raise RuntimeError, p)
  | Some w =>
      let hit := match cached p with Some (n, o, x) => if (n =? subcarriers w) && (o =? os) then Some x else None | None => None end in
      match hit with
      | Some x => (Ok x, p)
      | None => match fresh p w os with
                | Raise e => (Raise e, p)
                | Ok x => (Ok x, mkPilot (schmidl_cox p) (given p) (carrier p) (Some (subcarriers w, os, x)))
                end
      end
  end.
(** A history of calls: the pilots generated, with the section each was generated by *)
Inductive op := Elements (e : option elements) | Waveform (w : option wave) | Generate (os : nat).
Definition step (p : pilot) (o : op) : pilot :=
  match o with
  | Elements e => match set_elements p e with Ok p' => p' | Raise _ => p end
  | Waveform w => set_wave p w
  | Generate os => snd (generate p os)
  end.
Definition run (p : pilot) (l : list op) : pilot := fold_left step l p.

(** * Schmidl-Cox synchronization, ofdm 226-257 *)
(** 244-249: the halves of the symbol starting at sample [d] of one stream are correlated *)
Definition halves (s : list C) (half d : nat) : C := csum (fun i => conj (at0 s (d + i)) * at0 s (d + half + i))%C half.
(** 239-250: a zero is prepended *)
Definition powers (streams : list (list C)) (half k : nat) : R :=
  match k with
  | O => 0%R
  | S d => fold_right Rplus 0%R (map (fun s => Cmod (halves s half d)) streams)
  end.
(** [n] is the number of samples of each stream, [len] the length of a symbol (230) and [frame] that of a frame (252) *)
Definition synchronize (streams : list (list C)) (n len frame : nat) : result (list nat) :=
  if n <? len then Ok []
  else let half := len / 2 in
       let candidates := 2 + n - len in
       do peaks <- find_peaks (powers streams half) candidates (3 / 4 * maximum (powers streams half) (candidates - 1)) (9 * frame / 10);
       Ok (map (fun p => p - 1) peaks).
