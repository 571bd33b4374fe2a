(** Serialization of object graphs to hierarchical data files.
    Models hermespy/core/factory.py: SerializationProcess, HDFSerializationProcess (355-519, 838-1014),
    DeserializationProcess, HDFDeserializationProcess (522-835, 1017-1241) and Factory.to_HDF / from_HDF (224-276).

    Files are modelled as a list of links (groups, datasets and soft links by path) and a list of attributes;
    new items are added in front and lookups return the first match.  Paths list the innermost name first.
    Floating point numbers are represented by their 64 bit patterns.  Classes are modelled by the fields their
    [serialize] writes and their [Deserialize] reads, in order.
    Not modelled: file handling, campaigns (a campaign is one more group), serialize_custom, conversions of array
    types on reading, and root objects (930-932, separate caches). *)
From Coq Require Import List Arith Bool ZArith String Ascii Decimal DecimalString.
From Verif Require Import Base.
Import ListNotations.
Open Scope nat_scope.

Definition path := list string.
Definition float64 := N.
Inductive scalar := SInt (z : Z) | SFloat (x : float64) | SComplex (re im : float64) | SStr (s : string).
Record array := mkArray { shape : list nat; dtype : string; data : list N }.
Inductive entry := EGroup | EData (a : array) | ESoft (p : path).
Record store := mkStore { entries : list (path * entry); attrs : list (path * scalar) }.

Definition path_eqb (p q : path) : bool := if list_eq_dec string_dec p q then true else false.
Fixpoint lookup {A} (k : path) (l : list (path * A)) : option A :=
  match l with [] => None | (k', v) :: r => if path_eqb k k' then Some v else lookup k r end.
Fixpoint assoc {A} (k : nat) (l : list (nat * A)) : option A :=
  match l with [] => None | (k', v) :: r => if k =? k' then Some v else assoc k r end.
Definition is_some {A} (o : option A) : bool := match o with Some _ => true | None => false end.

(** Objects in memory.  References are addresses; arrays carry their identifier and their contents.
    [VNone]: an optional field that is not written. *)
Inductive value :=
| VScalar (s : scalar)
| VArray (cache : bool) (uid : nat) (a : array)
| VObject (a : nat)
| VSeq (append : bool) (l : list nat)
| VNone.
Record obj := mkObj { tag : string; fields : list (string * value) }.
Definition heap := list obj.

(** Classes: name, bases (including the class itself), fields read by [Deserialize], each with the kind of
    value and whether a default is passed *)
Inductive kind := KInt | KFloat | KComplex | KStr | KArray | KObject (expected : string) | KSeq (expected : string).
Record class := mkClass { bases : list string; readers : list (string * (kind * bool)) }.
Definition registry := list (string * class).
Fixpoint find_class (t : string) (r : registry) : option class :=
  match r with [] => None | (t', c) :: r' => if string_dec t t' then Some c else find_class t r' end.
Definition subclass (c : class) (e : string) : bool := existsb (fun b => if string_dec e b then true else false) (bases c).

(** Names of the members of sequences, [f"{index:04d}"] (990, 1215) *)
Fixpoint pad (n : nat) (d : uint) : uint := match n with O => d | S m => D0 (pad m d) end.
Definition index_name (i : nat) : string :=
  let d := Nat.to_uint i in NilEmpty.string_of_uint (pad (4 - Decimal.nb_digits d) d).

(** State of a serialization process: the file, the identifiers of cached arrays and objects (841-861) *)
Record wstate := mkW { file : store; warrays : list (nat * path); wobjects : list (nat * path) }.
Definition has (st : wstate) (p : path) : bool := is_some (lookup p (entries (file st))).
Definition add_entry (st : wstate) (p : path) (e : entry) : wstate :=
  mkW (mkStore ((p, e) :: entries (file st)) (attrs (file st))) (warrays st) (wobjects st).
Definition set_attr (st : wstate) (p : path) (s : scalar) : wstate :=
  mkW (mkStore (entries (file st)) ((p, s) :: attrs (file st))) (warrays st) (wobjects st).
Definition remember_array (st : wstate) (uid : nat) (p : path) : wstate := mkW (file st) ((uid, p) :: warrays st) (wobjects st).
Definition remember_object (st : wstate) (a : nat) (p : path) : wstate := mkW (file st) (warrays st) ((a, p) :: wobjects st).

(** serialize_array (884-902) *)
Definition serialize_array (st : wstate) (g : path) (cache : bool) (uid : nat) (a : array) (n : string) : wstate :=
  if has st (n :: g) then st
  else match (if cache then assoc uid (warrays st) else None) with
       | Some p => add_entry st (n :: g) (ESoft p)
       | None => let st1 := add_entry st (n :: g) (EData a) in if cache then remember_array st1 uid (n :: g) else st1
       end.
(** serialize_floating, _complex, _integer, _string (905-918): attributes are overwritten; integers
    outside the 64 bit range cannot be converted *)
Definition int64 (z : Z) : bool := ((- 2 ^ 63 <=? z) && (z <? 2 ^ 63))%Z.
Definition serialize_scalar (st : wstate) (g : path) (s : scalar) (n : string) : result wstate :=
  match s with
  | SInt z => if int64 z then Ok (set_attr st (n :: g) s) else Raise OverflowError
  | _ => Ok (set_attr st (n :: g) s)
  end.

Definition children (s : store) (g : path) : nat :=
  List.length (filter (fun x => match fst x with _ :: q => path_eqb q g | [] => false end) (entries s)).
Fixpoint foldM {S A} (f : S -> A -> result S) (l : list A) (s : S) : result S :=
  match l with [] => Ok s | x :: r => do s' <- f s x; foldM f r s' end.
(** Opening [group[name]] follows soft links *)
Definition resolve (s : store) (p : path) : path := match lookup p (entries s) with Some (ESoft q) => q | _ => p end.

(** serialize_object_sequence (961-990).  The removal from the cache of known objects (980-982) looks for
    paths among identifiers and never removes anything.  Datasets have no members: writing objects into one
    fails.  [w] serializes one object. *)
Definition serialize_sequence (w : wstate -> path -> string -> nat -> result wstate) (st : wstate) (g : path)
    (append : bool) (l : list nat) (n : string) : result wstate :=
  let '(st1, offset) :=
    if has st (n :: g) then (st, if append then children (file st) (resolve (file st) (n :: g)) else 0)
    else (add_entry st (n :: g) EGroup, 0) in
  let q := resolve (file st1) (n :: g) in
  match l, lookup q (entries (file st1)) with
  | [], _ => Ok st1
  | _, Some EGroup => foldM (fun s ia => w s q (index_name (fst ia)) (snd ia)) (combine (seq offset (List.length l)) l) st1
  | _, _ => Raise TypeError
  end.

(** One call of a [serialize] method *)
Definition write_field (w : wstate -> path -> string -> nat -> result wstate) (g : path) (st : wstate) (f : string * value) : result wstate :=
  let '(n, v) := f in
  match v with
  | VScalar s => serialize_scalar st g s n
  | VArray cache uid a => Ok (serialize_array st g cache uid a n)
  | VObject a => w st g n a
  | VSeq append l => serialize_sequence w st g append l n
  | VNone => Ok st
  end.

(** serialize_object, _serialize_object (414-436, 921-958).  [fuel] bounds the nesting of calls. *)
Fixpoint write_obj (fuel : nat) (H : heap) (r : registry) (st : wstate) (g : path) (n : string) (a : nat) : result wstate :=
  match fuel with
  | O => Raise RecursionError
  | S f =>
      match nth_error H a with
      | None => Raise AttributeError
      | Some o =>
          if negb (is_some (find_class (tag o) r)) then Raise RuntimeError
          else if has st (n :: g) then Ok st
          else match assoc a (wobjects st) with
               | Some p => Ok (add_entry st (n :: g) (ESoft p))
               | None =>
                   let p := n :: g in
                   do st1 <- foldM (write_field (write_obj f H r) p) (fields o) (remember_object (add_entry st p EGroup) a p);
                   Ok (set_attr st1 ("type"%string :: p) (SStr (tag o)))
               end
      end
  end.

(** State of a deserialization process: loaded objects in order of their creation, the number of loaded
    arrays, and the caches of objects and arrays by path (1020-1040) *)
Record rstate := mkR { loaded : heap; next_array : nat; robjects : list (path * nat); rarrays : list (path * (nat * array)) }.

(** deserialize_array (1066-1092) *)
Definition load_array (rs : rstate) (p : path) (a : array) : rstate * value :=
  let u := next_array rs in
  (mkR (loaded rs) (S u) (robjects rs) ((p, (u, a)) :: rarrays rs), VArray true u a).
Definition deserialize_array (s : store) (rs : rstate) (g : path) (n : string) (default : bool) : result (rstate * value) :=
  match lookup (n :: g) (entries s) with
  | None => if default then Ok (rs, VNone) else Raise RuntimeError
  | Some (ESoft p) =>
      match lookup p (rarrays rs) with
      | Some (u, a) => Ok (rs, VArray true u a)
      | None => match lookup p (entries s) with
                | Some (EData a) => Ok (load_array rs p a)
                | Some _ => Raise TypeError
                | None => Raise KeyError
                end
      end
  | Some (EData a) => Ok (load_array rs (n :: g) a)
  | Some EGroup => Raise TypeError
  end.
(** deserialize_floating, _complex, _integer, _string (1094-1134).  Missing strings without default are read as
    the text of None; the text of numbers read as strings is not modelled. *)
Definition deserialize_scalar (s : store) (g : path) (n : string) (k : kind) (default : bool) : result value :=
  match lookup (n :: g) (attrs s) with
  | None => if default then Ok VNone
            else match k with KStr => Ok (VScalar (SStr "None")) | _ => Raise RuntimeError end
  | Some v => match k, v with
              | KInt, SInt _ | KFloat, SFloat _ | KComplex, SComplex _ _ | KStr, SStr _ => Ok (VScalar v)
              | KStr, _ => Raise NotImplementedError
              | _, _ => Raise RuntimeError
              end
  end.

(** deserialize_object_sequence (1193-1220) without bounds; [rd] reads one object *)
Fixpoint read_members (rd : rstate -> path -> string -> result (rstate * option nat)) (g : path) (is : list nat) (rs : rstate) : result (rstate * list nat) :=
  match is with
  | [] => Ok (rs, [])
  | i :: r => do '(rs1, a) <- rd rs g (index_name i);
              match a with
              | None => Raise IndexError
              | Some a => do '(rs2, l) <- read_members rd g r rs1; Ok (rs2, a :: l)
              end
  end.
Definition deserialize_sequence (rd : rstate -> path -> string -> result (rstate * option nat)) (s : store) (rs : rstate) (g : path) (n : string) : result (rstate * list nat) :=
  if negb (is_some (lookup (n :: g) (entries s))) then Ok (rs, [])
  else let q := resolve s (n :: g) in read_members rd q (seq 0 (children s q)) rs.

(** One call of a [Deserialize] method *)
Definition read_field (rd : string -> rstate -> path -> string -> result (rstate * option nat)) (s : store) (g : path) (rs : rstate) (f : string * (kind * bool)) : result (rstate * (string * value)) :=
  let '(n, (k, default)) := f in
  match k with
  | KArray => do '(rs', v) <- deserialize_array s rs g n default; Ok (rs', (n, v))
  | KObject e => do '(rs', a) <- rd e rs g n;
                 match a with
                 | Some a => Ok (rs', (n, VObject a))
                 | None => if default then Ok (rs', (n, VNone)) else Raise RuntimeError
                 end
  | KSeq e => do '(rs', l) <- deserialize_sequence (rd e) s rs g n; Ok (rs', (n, VSeq false l))
  | _ => do v <- deserialize_scalar s g n k default; Ok (rs, (n, v))
  end.
Fixpoint read_fields (rd : string -> rstate -> path -> string -> result (rstate * option nat)) (s : store) (g : path) (l : list (string * (kind * bool))) (rs : rstate) : result (rstate * list (string * value)) :=
  match l with
  | [] => Ok (rs, [])
  | f :: r => do '(rs1, x) <- read_field rd s g rs f; do '(rs2, xs) <- read_fields rd s g r rs1; Ok (rs2, x :: xs)
  end.

(** _deserialize_object and the checks of deserialize_object (699-750, 1137-1190).  Cached objects are only
    found through soft links. *)
Fixpoint read_obj (fuel : nat) (r : registry) (s : store) (expected : string) (rs : rstate) (g : path) (n : string) : result (rstate * option nat) :=
  match fuel with
  | O => Raise RecursionError
  | S f =>
      match lookup (n :: g) (entries s) with
      | None => Ok (rs, None)
      | Some e =>
          let q := match e with ESoft p => p | _ => n :: g end in
          match (match e with ESoft p => lookup p (robjects rs) | _ => None end) with
          | Some a =>
              match nth_error (loaded rs) a with
              | Some o => match find_class (tag o) r with
                          | Some c => if subclass c expected then Ok (rs, Some a) else Raise RuntimeError
                          | None => Raise RuntimeError
                          end
              | None => Raise RuntimeError
              end
          | None =>
              match lookup ("type"%string :: q) (attrs s) with
              | Some (SStr t) =>
                  match find_class t r with
                  | Some c =>
                      if negb (subclass c expected) then Raise RuntimeError
                      else do '(rs1, fs) <- read_fields (fun e' => read_obj f r s e') s q (readers c) rs;
                           let a := List.length (loaded rs1) in
                           Ok (mkR (loaded rs1 ++ [mkObj t fs]) (next_array rs1) ((q, a) :: robjects rs1) (rarrays rs1), Some a)
                  | None => Raise RuntimeError
                  end
              | _ => Raise RuntimeError
              end
          end
      end
  end.

(** Factory.to_HDF and from_HDF (224-276) with HDFSerializationProcess.New (864-881): the base group starts
    with two attributes and a group for arrays; the object writes its fields into the base group *)
Definition new_file (version : string) (timestamp : float64) : wstate :=
  mkW (mkStore [(["arrays"%string], EGroup)] [(["timestamp"%string], SFloat timestamp); (["version"%string], SStr version)]) [] [].
Definition to_hdf (fuel : nat) (H : heap) (r : registry) (version : string) (timestamp : float64) (a : nat) : result store :=
  match nth_error H a with
  | None => Raise AttributeError
  | Some o => do st <- foldM (write_field (write_obj fuel H r) []) (fields o) (new_file version timestamp); Ok (file st)
  end.
Definition empty_reader : rstate := mkR [] 0 [] [].
Definition from_hdf (fuel : nat) (r : registry) (s : store) (t : string) : result (heap * obj) :=
  match find_class t r with
  | None => Raise TypeError
  | Some c => do '(rs, fs) <- read_fields (fun e => read_obj fuel r s e) s [] (readers c) empty_reader; Ok (loaded rs, mkObj t fs)
  end.
