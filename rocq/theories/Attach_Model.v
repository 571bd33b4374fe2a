(** Model of the ownership links between communication waveforms and their
    synchronization, channel estimation and channel equalization routines:
    hermespy/modem/waveform.py:30-65, 111-148, 186-210, 262-304, 564-601.

    Objects are numbers.  Only the two kinds of reference are kept: the routine a
    waveform uses and the waveform a routine reports.  Subclass specific behaviour of
    the routines does not touch these references and is not modelled. *)
From Coq Require Import List Arith Bool.
From Verif Require Import Base.
Import ListNotations.

(** The references of one kind of routine.  [c_slot w] is the routine in use by
    waveform [w] (None before the constructor assigned one), [c_owner] lists the
    waveform reported by each routine object created so far. *)
Record links := mkLinks { c_slot : nat -> option nat; c_owner : list (option nat) }.

Definition owner (s : links) (v : nat) : option nat := nth v (c_owner s) None.
Definition set_slot (s : links) (w v : nat) : links :=
  mkLinks (fun x => if x =? w then Some v else c_slot s x) (c_owner s).
Definition set_owner (s : links) (v : nat) (w : option nat) : links :=
  mkLinks (c_slot s) (firstn v (c_owner s) ++ w :: skipn (S v) (c_owner s)).
(** [Routine(waveform)]: waveform.py:39-46, 114-121, 189-196 only store the argument. *)
Definition new_routine (s : links) (w : option nat) : links := mkLinks (c_slot s) (c_owner s ++ [w]).

Definition same (x y : option nat) : bool :=
  match x, y with
  | None, None => true
  | Some a, Some b => a =? b
  | _, _ => false
  end.

(** A call: the state afterwards, also if it raised. *)
Notation call := (links * option exn)%type.
Definition andthen (c : call) (k : links -> call) : call :=
  match c with
  | (s, None) => k s
  | _ => c
  end.

(** waveform.py:570-575 [waveform.synchronization = v] and 57-65
    [v.waveform = w]; the setters call each other, [n] bounds the depth of the
    Python stack. *)
Fixpoint sync_assign (n : nat) (s : links) (w v : nat) : call :=
  match n with
  | 0 => (s, Some RecursionError)
  | S k =>
      let s1 := set_slot s w v in
      if same (owner s1 v) (Some w) then (s1, None) else sync_attach k s1 v (Some w)
  end
with sync_attach (n : nat) (s : links) (v : nat) (w : option nat) : call :=
  match n with
  | 0 => (s, Some RecursionError)
  | S k =>
      andthen
        match owner s v with
        | Some u => if same (c_slot s u) (Some v)
                    then sync_assign k (new_routine s None) u (length (c_owner s))
                    else (s, None)
        | None => (s, None)
        end
        (fun s1 => (set_owner s1 v w, None))
  end.

(** waveform.py:583-588 [waveform.channel_estimation = v] and 131-148 [v.waveform = w]. *)
Fixpoint est_assign (n : nat) (s : links) (w v : nat) : call :=
  match n with
  | 0 => (s, Some RecursionError)
  | S k =>
      let s1 := set_slot s w v in
      if same (owner s1 v) (Some w) then (s1, None) else est_attach k s1 v (Some w)
  end
with est_attach (n : nat) (s : links) (v : nat) (w : option nat) : call :=
  match n with
  | 0 => (s, Some RecursionError)
  | S k =>
      match w with
      | None =>
          let s1 := set_owner s v None in
          match owner s v with
          | Some u => est_assign k (new_routine s1 None) u (length (c_owner s1))
          | None => (s1, None)
          end
      | Some w' =>
          andthen
            match owner s v with
            | Some u => if u =? w' then (s, None)
                        else est_assign k (new_routine s None) u (length (c_owner s))
            | None => (s, None)
            end
            (fun s1 => est_assign k (set_owner s1 v (Some w')) w' v)
      end
  end.

(** waveform.py:596-601 [waveform.channel_equalization = v] and 202-210 [v.waveform = w]. *)
Definition eq_attach (s : links) (v : nat) (w : option nat) : call :=
  match owner s v with
  | Some _ => (s, Some RuntimeError)
  | None => (set_owner s v w, None)
  end.
Definition eq_assign (s : links) (w v : nat) : call :=
  let s1 := set_slot s w v in
  if same (owner s1 v) (Some w) then (s1, None) else eq_attach s1 v (Some w).

Inductive kind := Sync | Est | Equ.
(** Stack frames available to nested setter calls. *)
Definition depth := 6.
Definition assign (k : kind) (s : links) (w v : nat) : call :=
  match k with
  | Sync => sync_assign depth s w v
  | Est => est_assign depth s w v
  | Equ => eq_assign s w v
  end.
Definition attach (k : kind) (s : links) (v : nat) (w : option nat) : call :=
  match k with
  | Sync => sync_attach depth s v w
  | Est => est_attach depth s v w
  | Equ => eq_attach s v w
  end.

(** What a program can do with routines of one kind.  Routines or waveforms that do not
    exist cannot be named; such operations are ignored. *)
Inductive aop :=
  | NewRoutine (w : option nat)            (* Routine(w) *)
  | NewWaveform (v : option nat)           (* Waveform(..., routine = v), waveform.py:289-301 *)
  | Assign (w v : nat)                     (* w.routine = v *)
  | Attach (v : nat) (w : option nat).     (* v.waveform = w *)

Record astate := mkA { a_links : links; a_wfs : nat }.
Definition a_empty : astate := mkA (mkLinks (fun _ => None) []) 0.

Definition exists_wf (s : astate) (w : option nat) : bool :=
  match w with None => true | Some x => x <? a_wfs s end.
Definition exists_rt (s : astate) (v : nat) : bool := v <? length (c_owner (a_links s)).

(** One operation and the exception it raised.  A waveform whose constructor raised is
    not available afterwards, but the references it left behind are. *)
Definition astep (k : kind) (s : astate) (o : aop) : astate * option exn :=
  let lift (c : call) (n : nat) := (mkA (fst c) n, snd c) in
  match o with
  | NewRoutine w => if exists_wf s w then (mkA (new_routine (a_links s) w) (a_wfs s), None) else (s, None)
  | NewWaveform None =>
      let w := a_wfs s in
      lift (assign k (new_routine (a_links s) (Some w)) w (length (c_owner (a_links s)))) (S w)
  | NewWaveform (Some v) =>
      if exists_rt s v then lift (assign k (a_links s) (a_wfs s) v) (S (a_wfs s)) else (s, None)
  | Assign w v => if exists_wf s (Some w) && exists_rt s v then lift (assign k (a_links s) w v) (a_wfs s) else (s, None)
  | Attach v w => if exists_wf s w && exists_rt s v then lift (attach k (a_links s) v w) (a_wfs s) else (s, None)
  end.

Fixpoint arun (k : kind) (s : astate) (l : list aop) : astate * list (option exn) :=
  match l with
  | [] => (s, [])
  | o :: t => let (s1, e) := astep k s o in let (s2, es) := arun k s1 t in (s2, e :: es)
  end.
