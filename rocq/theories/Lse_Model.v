(** Least squares channel estimation of orthogonal waveforms: hermespy/modem/waveforms/orthogonal/channel.py (cited by line) and zero forcing of a single stream,
    hermespy/modem/waveform.py 239-250.
    Simplifications: exact complex numbers, not-a-number is [None]; the interpolations of scipy (griddata) are arguments, [linear] and [nearest], called with the
    points, their values and the places to interpolate at; resource grids are those of Grid_Model. *)
From Coq Require Import List Arith Bool Reals.
From Coquelicot Require Import Complex.
From Verif Require Import Base Grid_Model Grid_Spec.
Import ListNotations.
Local Open Scope nat_scope.

(** numpy: cells of a table by index, assignment at a list of cells, and the cells that satisfy a condition in memory order *)
Definition place_of := (nat * nat)%type.
Definition same (p q : place_of) : bool := (fst p =? fst q) && (snd p =? snd q).
Definition table := place_of -> option C.
Definition store (ps : list place_of) (vs : list (option C)) (t : table) : table :=
  fun p => match find (fun q => same (fst q) p) (combine ps vs) with Some (_, v) => v | None => t p end.
Definition where_ (words width : nat) (f : place_of -> bool) : list place_of := filter f (cells words width).
Definition is_reference (mask : list (list (option etype))) (p : place_of) : bool := is_type REFERENCE (entry None mask p).
Definition is_nan (t : table) (p : place_of) : bool := match t p with None => true | Some _ => false end.
Definition value (t : table) (p : place_of) : C := match t p with Some z => z | None => RtoC 0 end.

Section Interpolation.
Variable linear : list place_of -> list C -> list place_of -> result (list (option C)).
Variable nearest : list place_of -> list C -> list place_of -> list C.

(** 29-66 [estimate_channel]; [received] are the words of the (first) stream.  Boolean indices must have the shape of the indexed array (39) *)
Definition estimate (w : @wave C) (streams : nat) (received : list (list C)) : result table :=
  if negb (streams =? 1) then Raise NotImplementedError
  else
    do mask <- resource_mask w;
    let words := words_per_frame w in
    let width := w_sub w in
    if negb ((length received =? words) && forallb (fun r => length r =? width) received) then Raise IndexError
    else
      let stems := where_ words width (is_reference mask) in
      let propagated := map (entry (RtoC 0) received) stems in
      do refs <- pilot_symbols w (length propagated);
      let quotients := map (fun p => Cdiv (fst p) (snd p)) (combine propagated refs) in
      let t0 := store stems (map Some quotients) (fun _ => Some (RtoC 0)) in
      let holes := where_ words width (fun p => negb (is_reference mask p)) in
      do t1 <- match holes with
               | [] => Ok t0
               | _ => do v <- linear stems quotients holes; Ok (store holes v t0)
               end;
      let nans := where_ words width (is_nan t1) in
      let known := where_ words width (fun p => negb (is_nan t1 p)) in
      Ok (store nans (map Some (nearest known (map (value t1) known) nans)) t1).

(** modem/waveform.py 239-250 for one stream and one transmitted stream *)
Definition equalize (words width : nat) (received : list (list C)) (t : table) : list (list C) :=
  map (fun i => map (fun j => Cdiv (entry (RtoC 0) received (i, j)) (value t (i, j))) (seq 0 width)) (seq 0 words).
End Interpolation.
