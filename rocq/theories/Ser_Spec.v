(** Vocabulary of C12, C13 and C59: well-formed object graphs, equality of graphs up to addresses, and the value
    a history of writes leaves under a name. *)
From Coq Require Import List Arith Bool ZArith String.
From Verif Require Import Base Ser_Model.
Import ListNotations.
Open Scope nat_scope.

(** An object can be referred to where class [e] is expected *)
Definition instance_of (r : registry) (H : heap) (e : string) (b : nat) : Prop :=
  exists o c, nth_error H b = Some o /\ find_class (tag o) r = Some c /\ subclass c e = true.

(** The value of a field suits the way its class reads it.  [content]: what each array identifier stands for;
    [below]: objects that may be referred to. *)
Inductive fits (r : registry) (H : heap) (content : nat -> array) (below : nat -> Prop) : value -> kind -> bool -> Prop :=
| fits_int : forall z d, (- 2 ^ 63 <= z < 2 ^ 63)%Z -> fits r H content below (VScalar (SInt z)) KInt d
| fits_float : forall x d, fits r H content below (VScalar (SFloat x)) KFloat d
| fits_complex : forall x y d, fits r H content below (VScalar (SComplex x y)) KComplex d
| fits_string : forall s d, fits r H content below (VScalar (SStr s)) KStr d
| fits_array : forall cache u a d, a = content u -> fits r H content below (VArray cache u a) KArray d
| fits_object : forall b e d, instance_of r H e b -> below b -> fits r H content below (VObject b) (KObject e) d
| fits_seq : forall ap l e d, Forall (fun b => instance_of r H e b /\ below b) l -> fits r H content below (VSeq ap l) (KSeq e) d
| fits_none : forall k, (forall e, k <> KSeq e) -> fits r H content below VNone k true.

Definition is_attribute (k : kind) : bool := match k with KInt | KFloat | KComplex | KStr => true | _ => false end.

(** Fields are read in the order in which they are written; names are distinct; a number or string is not
    stored under the reserved name "type" *)
Definition readable (r : registry) (H : heap) (content : nat -> array) (below : nat -> Prop)
    (fs : list (string * value)) (ks : list (string * (kind * bool))) : Prop :=
  NoDup (map fst fs) /\
  Forall2 (fun f k => fst f = fst k /\ fits r H content below (snd f) (fst (snd k)) (snd (snd k)) /\
                      (fst f = "type"%string -> is_attribute (fst (snd k)) = false)) fs ks.

(** Every object belongs to a registered class, is readable, and refers only to objects of smaller rank
    (so that there are no cycles) *)
Definition well_formed (r : registry) (H : heap) (content : nat -> array) (rank : nat -> nat) : Prop :=
  forall a o, nth_error H a = Some o ->
    exists c, find_class (tag o) r = Some c /\
              readable r H content (fun b => rank b < rank a) (fields o) (readers c).

(** Equality of values and objects, given which addresses and array identifiers correspond *)
Inductive same_value (objs arrs : list (nat * nat)) : value -> value -> Prop :=
| same_scalar : forall s, same_value objs arrs (VScalar s) (VScalar s)
| same_array : forall u u' a, In (u, u') arrs -> same_value objs arrs (VArray true u a) (VArray true u' a)
| same_copy : forall u u' a, same_value objs arrs (VArray false u a) (VArray true u' a)
| same_object : forall a a', In (a, a') objs -> same_value objs arrs (VObject a) (VObject a')
| same_seq : forall ap ap' l l', Forall2 (fun a a' => In (a, a') objs) l l' -> same_value objs arrs (VSeq ap l) (VSeq ap' l')
| same_none : same_value objs arrs VNone VNone.
Definition same_fields objs arrs (fs fs' : list (string * value)) : Prop :=
  Forall2 (fun f f' => fst f = fst f' /\ same_value objs arrs (snd f) (snd f')) fs fs'.
Definition same_objects objs arrs (o o' : obj) : Prop := tag o = tag o' /\ same_fields objs arrs (fields o) (fields o').
Definition one_to_one (l : list (nat * nat)) : Prop :=
  (forall a x y, In (a, x) l -> In (a, y) l -> x = y) /\ (forall a b x, In (a, x) l -> In (b, x) l -> a = b).

(** Two graphs are equal up to addresses *)
Definition isomorphic (H : heap) (o : obj) (H' : heap) (o' : obj) : Prop :=
  exists objs arrs, one_to_one objs /\ one_to_one arrs /\ same_objects objs arrs o o' /\
    forall a a', In (a, a') objs -> exists x x', nth_error H a = Some x /\ nth_error H' a' = Some x' /\ same_objects objs arrs x x'.

(** Following a chain of fields and positions in sequences *)
Inductive step := Field (n : string) | Item (n : string) (i : nat).
Fixpoint field (n : string) (l : list (string * value)) : option value :=
  match l with [] => None | (m, v) :: r => if string_dec n m then Some v else field n r end.
Definition take (o : obj) (s : step) : option nat :=
  match s with
  | Field n => match field n (fields o) with Some (VObject a) => Some a | _ => None end
  | Item n i => match field n (fields o) with Some (VSeq _ l) => nth_error l i | _ => None end
  end.
Fixpoint follow (H : heap) (a : nat) (l : list step) : option nat :=
  match l with
  | [] => Some a
  | s :: r => match nth_error H a with Some o => match take o s with Some b => follow H b r | None => None end | None => None end
  end.
Definition reach (H : heap) (o : obj) (s : step) (l : list step) : option nat :=
  match take o s with Some a => follow H a l | None => None end.
Definition scalar_of (o : obj) (n : string) : option scalar :=
  match field n (fields o) with Some (VScalar s) => Some s | _ => None end.
Definition array_of (o : obj) (n : string) : option array :=
  match field n (fields o) with Some (VArray _ _ a) => Some a | _ => None end.

(** What a history of writes leaves under a name: the last number or string, the first array, object or sequence *)
Fixpoint last_scalar (n : string) (l : list (string * value)) : option scalar :=
  match l with
  | [] => None
  | (m, v) :: r => match last_scalar n r with
                   | Some s => Some s
                   | None => if string_dec n m then match v with VScalar s => Some s | _ => None end else None
                   end
  end.
Fixpoint first_link (n : string) (l : list (string * value)) : option value :=
  match l with
  | [] => None
  | (m, v) :: r => if string_dec n m then match v with VScalar _ | VNone => first_link n r | _ => Some v end else first_link n r
  end.
Definition scalar_kind (s : scalar) : kind :=
  match s with SInt _ => KInt | SFloat _ => KFloat | SComplex _ _ => KComplex | SStr _ => KStr end.
