(** Recording and replaying drops.
    Models hermespy/core/scenario.py: Scenario.record (368-439), replay (441-505), Replay (507-548), drop (817-854), with
    Factory.serialize / deserialize (278-335), HDFSerializationProcess.New (864-881), HDFDeserializationProcess.New (1037-1046)
    and root objects (930-935).
    Not modelled: file handles, the scenario's mode flag, operator callbacks during replay. *)
From Coq Require Import List Arith Bool ZArith String.
From Verif Require Import Base Ser_Model.
Import ListNotations.
Open Scope nat_scope.

(** The group of a campaign (874-876, 1042-1045) *)
Definition base (campaign : option string) : path := match campaign with None => [] | Some n => [n] end.
Definition create_group (s : store) (p : path) : store :=
  if is_some (lookup p (entries s)) then s else mkStore ((p, EGroup) :: entries s) (attrs s).

(** HDFSerializationProcess.New on an opened file (864-881) *)
Definition open_file (version : string) (timestamp : float64) (campaign : option string) (s : store) : store :=
  let s1 := mkStore (entries s) ((["timestamp"%string], SFloat timestamp) :: (["version"%string], SStr version) :: attrs s) in
  let s2 := match campaign with None => s1 | Some n => create_group s1 [n] end in
  create_group s2 ("arrays"%string :: base campaign).

(** Root objects are written with empty caches (930-935), which are dropped afterwards *)
Definition write_root (fuel : nat) (H : heap) (r : registry) (st : wstate) (g : path) (n : string) (a : nat) : result wstate :=
  do st' <- write_obj fuel H r (mkW (file st) [] []) g n a;
  Ok (mkW (file st') (warrays st) (wobjects st)).

(** An object together with the memory it lives in at the time of writing *)
Definition snapshot := (heap * nat)%type.

(** The state of the scenario (429-432) and one drop (851) *)
Definition record_state (fuel : nat) (r : registry) (c : option string) (x : snapshot) (s : store) : result store :=
  do st <- write_root fuel (fst x) r (mkW s [] []) (base c) "state"%string (snd x); Ok (file st).
Definition record_drop (fuel : nat) (r : registry) (c : option string) (s : store) (x : snapshot) : result store :=
  do st <- serialize_sequence (write_root fuel (fst x) r) (mkW s [] []) (base c) true [snd x] "drops"%string; Ok (file st).

(** One recording: record, several drops, stop *)
Record session := mkSession { campaign : option string; version : string; timestamp : float64; state : option snapshot; drops : list snapshot }.
Definition record_session (fuel : nat) (r : registry) (s : store) (x : session) : result store :=
  let s1 := open_file (version x) (timestamp x) (campaign x) s in
  do s2 <- match state x with None => Ok s1 | Some o => record_state fuel r (campaign x) o s1 end;
  foldM (record_drop fuel r (campaign x)) (drops x) s2.
Definition record_all (fuel : nat) (r : registry) (l : list session) : result store :=
  foldM (record_session fuel r) l (mkStore [] []).

(** sequence_length (1222-1226) *)
Definition sequence_length (s : store) (g : path) (n : string) : nat :=
  if is_some (lookup (n :: g) (entries s)) then children s (resolve s (n :: g)) else 0.
(** deserialize_object_sequence with bounds (1193-1220) *)
Definition deserialize_range (rd : rstate -> path -> string -> result (rstate * option nat)) (s : store) (rs : rstate) (g : path) (n : string)
    (start stop : nat) : result (rstate * list nat) :=
  if negb (is_some (lookup (n :: g) (entries s))) then Raise RuntimeError
  else let q := resolve s (n :: g) in
       let last := Nat.min stop (children s q) in
       read_members rd q (seq start (last - start)) rs.

(** A scenario in replay mode: next drop and reader *)
Record player := mkPlayer { counter : nat; reader : rstate }.
(** replay (484-505) *)
Definition replay (s : store) (c : option string) (offset : nat) : result (player * nat) :=
  if match c with None => false | Some n => negb (is_some (lookup [n] (entries s))) end then Raise RuntimeError
  else let available := sequence_length s (base c) "drops" in
       if available <=? offset then Raise ValueError
       else Ok (mkPlayer offset empty_reader, available - offset).
(** drop in replay mode (823-832): the object *)
Definition replay_drop (fuel : nat) (r : registry) (expected : string) (s : store) (c : option string) (p : player) : result (player * obj) :=
  do '(rs, l) <- deserialize_range (fun rs g n => read_obj fuel r s expected rs g n) s (reader p) (base c) "drops" (counter p) (1 + counter p);
  match l with
  | [] => Raise IndexError
  | a :: _ => match nth_error (loaded rs) a with Some o => Ok (mkPlayer (S (counter p)) rs, o) | None => Raise IndexError end
  end.
(** Replay (539-548): the scenario's state *)
Definition replay_state (fuel : nat) (r : registry) (expected : string) (s : store) (c : option string) : result (heap * obj) :=
  if match c with None => false | Some n => negb (is_some (lookup [n] (entries s))) end then Raise RuntimeError
  else do '(rs, a) <- read_obj fuel r s expected empty_reader (base c) "state";
       match a with
       | Some a => match nth_error (loaded rs) a with Some o => Ok (loaded rs, o) | None => Raise RuntimeError end
       | None => Raise RuntimeError
       end.
