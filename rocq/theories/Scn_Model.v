(** Model of the modes of a scenario: hermespy/core/scenario.py and the drops of simulation
    scenarios (simulation/scenario.py:731-745).

    Simplifications for the whole file
    - files hold, per campaign, the list of recorded drops: what C59 proves of HDF5 files (for
      campaign names other than the reserved ones);  scenario states within files are not modelled;
    - files are named by numbers; a missing file raises FileNotFoundError on reading and is created on writing;
    - a device is a name and the numbers of its transmit and receive operators; signals and transmissions
      are opaque numbers; the processing of received signals does not fail;
    - file handles and random seeds are not modelled. *)
From Coq Require Import String List Arith Bool.
From Verif Require Import Base.
Import ListNotations.
Open Scope nat_scope.

(** scenario.py:49-68. *)
Inductive mode := DEFAULT | RECORD | REPLAY.
Definition mode_eqb (a b : mode) : bool :=
  match a, b with DEFAULT, DEFAULT | RECORD, RECORD | REPLAY, REPLAY => true | _, _ => false end.

(** drop.py:22-90: per device, the transmissions and the inputs of its operators. *)
Record drop := mkDrop { d_transmissions : list (list nat); d_inputs : list (list nat) }.
Record device := mkDevice { name : nat; transmitters : nat; receivers : nat }.

Definition campaign_name := option string.
Definition campaign_dec : forall a b : campaign_name, {a = b} + {a <> b}.
Proof. decide equality. apply string_dec. Defined.
(** Drops by campaign; [None] for a campaign without group.  The file itself is the group of no campaign. *)
Definition file := campaign_name -> option (list drop).
Definition disk := nat -> option file.

(** scenario.py:80-86. *)
Record scenario := mkScn {
  s_mode : mode; s_devices : list device;
  s_writing : option (nat * campaign_name);      (* __serialization_process *)
  s_reading : option (nat * campaign_name);      (* __deserialization_process *)
  s_counter : nat; s_campaign : campaign_name; s_replay_file : option nat }.
(** 107-114. *)
Definition new_scenario : scenario := mkScn DEFAULT [] None None 0 (Some "default"%string) None.

(** What operators are told during a replay. *)
Inductive note := Transmitted (device operator what : nat) | Received (device operator what : nat).
Inductive out := Done | Number (n : nat) | Dropped (d : drop) (notes : list note).
Definition world := (scenario * disk)%type.

(** 144-157. *)
Definition add_device (s : scenario) (d : device) : scenario * result out :=
  if existsb (fun x => name x =? name d) (s_devices s) then (s, Raise ValueError)
  else if negb (mode_eqb (s_mode s) DEFAULT) then (s, Raise RuntimeError)
  else (mkScn (s_mode s) (s_devices s ++ [d]) (s_writing s) (s_reading s) (s_counter s) (s_campaign s) (s_replay_file s), Ok Done).

(** 330-350; the counter is reset before the mode is checked. *)
Definition set_campaign (s : scenario) (c : campaign_name) : scenario * result out :=
  if campaign_dec c (Some "state"%string) then (s, Raise ValueError)
  else if campaign_dec c (s_campaign s) then (s, Ok Done)
  else
    let s1 := mkScn (s_mode s) (s_devices s) (s_writing s) (s_reading s) 0 (s_campaign s) (s_replay_file s) in
    if mode_eqb (s_mode s) REPLAY then (s1, Raise NotImplementedError)
    else (mkScn (s_mode s1) (s_devices s1) (s_writing s1) (s_reading s1) (s_counter s1) c (s_replay_file s1), Ok Done).

(** Opening a file for writing (factory.py:300-301, 863-881): the file and the group are created if missing. *)
Definition empty_file : file := fun c => match c with None => Some [] | Some _ => None end.
Definition set_file (k : disk) (f : nat) (x : option file) : disk := fun f' => if f' =? f then x else k f'.
Definition set_drops (x : file) (c : campaign_name) (l : list drop) : file :=
  fun c' => if campaign_dec c' c then Some l else x c'.
Definition open_for_writing (k : disk) (f : nat) (c : campaign_name) : disk :=
  let x := match k f with Some x => x | None => empty_file end in
  set_file k f (Some (match x c with Some _ => x | None => set_drops x c [] end)).

(** 411-439. *)
Definition record (w : world) (f : nat) (c : campaign_name) (overwrite : bool) : world * result out :=
  let '(s, k) := w in
  if negb (mode_eqb (s_mode s) DEFAULT) then (w, Raise RuntimeError)
  else
    let k1 := if overwrite then set_file k f None else k in
    let k2 := open_for_writing k1 f c in
    let s1 := mkScn RECORD (s_devices s) (Some (f, c)) (s_reading s) 0 (s_campaign s) (s_replay_file s) in
    let '(s2, r) := set_campaign s1 c in
    ((s2, k2), r).

(** 550-566. *)
Definition stop (s : scenario) : scenario :=
  let s1 := match s_writing s with
            | Some _ => mkScn (s_mode s) (s_devices s) None (s_reading s) 0 (s_campaign s) (s_replay_file s)
            | None => s
            end in
  let s2 := match s_reading s1 with
            | Some _ => mkScn (s_mode s1) (s_devices s1) (s_writing s1) None 0 (s_campaign s1) (s_replay_file s1)
            | None => s1
            end in
  mkScn DEFAULT (s_devices s2) (s_writing s2) (s_reading s2) (s_counter s2) (s_campaign s2) (s_replay_file s2).

(** factory.py:329-332, 1048-1051: opening for reading. *)
Definition drops_in (k : disk) (f : nat) (c : campaign_name) : result (list drop) :=
  match k f with
  | None => Raise FileNotFoundError
  | Some x => match x c with
              | None => Raise RuntimeError
              | Some l => Ok l
              end
  end.
(** 475-505. *)
Definition replay (w : world) (f : option nat) (c : campaign_name) (offset : nat) : world * result out :=
  let '(s, k) := w in
  match (match f with Some g => Some g | None => s_replay_file s end) with
  | None => (w, Raise ValueError)
  | Some g =>
      match drops_in k g c with
      | Raise e => (w, Raise e)
      | Ok l =>
          if length l <=? offset then (w, Raise ValueError)
          else
            let s1 := stop s in
            ((mkScn REPLAY (s_devices s1) (s_writing s1) (Some (g, c)) offset c (Some g), k), Ok (Number (length l - offset)))
      end
  end.

(** 835-839: callbacks of transmitters, as far as both lists reach. *)
Fixpoint index_from {X} (i : nat) (l : list X) : list (nat * X) :=
  match l with [] => [] | x :: r => (i, x) :: index_from (S i) r end.
Definition transmit_notes (ds : list device) (d : drop) : list note :=
  flat_map (fun p => let '(i, (x, l)) := p in map (fun q => Transmitted i (fst q) (snd q)) (index_from 0 (firstn (transmitters x) l)))
           (index_from 0 (combine ds (d_transmissions d))).
(** device.py:1593-1603 for one device after the other (scenario.py:706-713); a mismatch at a later device
    is noticed after the earlier ones have been served. *)
Fixpoint receive_notes (i : nat) (l : list (device * list nat)) : list note * option exn :=
  match l with
  | [] => ([], None)
  | (x, ins) :: r =>
      if negb (length ins =? receivers x) then ([], Some ValueError)
      else let '(ns, e) := receive_notes (S i) r in
           (map (fun q => Received i (fst q) (snd q)) (index_from 0 ins) ++ ns, e)
  end.
Definition replayed (ds : list device) (d : drop) : list note * option exn :=
  let sent := transmit_notes ds d in
  if negb (length (d_inputs d) =? length ds) then (sent, Some ValueError)
  else let '(got, e) := receive_notes 0 (combine ds (d_inputs d)) in (sent ++ got, e).

(** Scenarios differ in [_drop]: replay scenarios cannot generate drops (scenario.py:861-866). *)
Inductive flavour := Generating | ReplayOnly.

(** [drop] (817-854) and its notes also in case of an error.  [fresh] is the drop generated by [_drop];
    simulation scenarios called with a timestamp only generate (simulation/scenario.py:742-745). *)
Definition do_drop (v : flavour) (w : world) (stamped : bool) (fresh : drop) : world * result out * list note :=
  let '(s, k) := w in
  let generated := match v with Generating => Ok fresh | ReplayOnly => Raise RuntimeError end in
  if stamped then
    match generated with Ok d => (w, Ok (Dropped d []), []) | Raise e => (w, Raise e, []) end
  else if mode_eqb (s_mode s) REPLAY then
    match s_reading s with
    | None => (w, Raise RuntimeError, [])
    | Some (f, c) =>
        match drops_in k f c with
        | Raise e => (w, Raise e, [])
        | Ok l => match nth_error l (s_counter s) with
                  | None => (w, Raise IndexError, [])
                  | Some d =>
                      let s1 := mkScn (s_mode s) (s_devices s) (s_writing s) (s_reading s) (S (s_counter s)) (s_campaign s) (s_replay_file s) in
                      let '(ns, e) := replayed (s_devices s) d in
                      ((s1, k), match e with None => Ok (Dropped d ns) | Some x => Raise x end, ns)
                  end
        end
    end
  else
    match generated with
    | Raise e => (w, Raise e, [])
    | Ok d =>
        if mode_eqb (s_mode s) RECORD then
          match s_writing s with
          | None => (w, Raise AttributeError, [])
          | Some (f, c) =>
              match k f with
              | None => (w, Raise AttributeError, [])
              | Some x =>
                  let l := match x c with Some l => l | None => [] end in
                  ((mkScn (s_mode s) (s_devices s) (s_writing s) (s_reading s) (S (s_counter s)) (s_campaign s) (s_replay_file s),
                    set_file k f (Some (set_drops x c (l ++ [d])))), Ok (Dropped d []), [])
              end
          end
        else (w, Ok (Dropped d []), [])
    end.

(** 775-780. *)
Definition num_drops (s : scenario) : nat := if mode_eqb (s_mode s) DEFAULT then 0 else s_counter s.

Inductive op :=
  | AddDevice (d : device)
  | SetCampaign (c : campaign_name)
  | Record (f : nat) (c : campaign_name) (overwrite : bool)
  | Replay (f : option nat) (c : campaign_name) (offset : nat)
  | Stop
  | Drop (stamped : bool) (fresh : drop).
Definition apply (v : flavour) (w : world) (o : op) : world * result out :=
  match o with
  | AddDevice d => let '(s, r) := add_device (fst w) d in ((s, snd w), r)
  | SetCampaign c => let '(s, r) := set_campaign (fst w) c in ((s, snd w), r)
  | Record f c ow => record w f c ow
  | Replay f c n => replay w f c n
  | Stop => ((stop (fst w), snd w), Ok Done)
  | Drop st d => fst (do_drop v w st d)
  end.
Definition run (v : flavour) (w : world) (ops : list op) : world := fold_left (fun w o => fst (apply v w o)) ops w.
