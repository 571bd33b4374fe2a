(** Kinematic chains: coordinate frames attached to each other, with cached transformations.
    Models hermespy/core/transformation.py: TransformableLink (501-569), TransformableBase (572-584), Transformable (587-784).
    Transformations are elements of any type with a product and an inversion; their arithmetic is modelled in Rot_Model.
    Frames are numbered and exist, detached and without cached values, from the start.
    Not modelled: arguments of a wrong type or shape, frames that are modified through arrays returned by properties. *)
From Coq Require Import List Arith Bool.
From Verif Require Import Base.
Import ListNotations.

Section Kinematics.
Variables (T : Type) (mul : T -> T -> T) (inv : T -> T) (one : T).
(** Which objects are a [TransformableBase], such as a scenario *)
Variable root : nat -> bool.

(** A cached forwards transformation is either an array of its own or the very array that stores the pose (707-708) *)
Inductive cached := Own (t : T) | ThePose.
Record frame := mkFrame { pose : T; base : option nat; links : list nat; forwards : option cached; backwards : option T }.
Definition frames := nat -> frame.
Definition upd (s : frames) (x : nat) (f : frame) : frames := fun y => if y =? x then f else s y.

(** The elementary assignments *)
Definition with_pose (t : T) (f : frame) : frame := mkFrame t (base f) (links f) (forwards f) (backwards f).
Definition with_base (b : option nat) (f : frame) : frame := mkFrame (pose f) b (links f) (forwards f) (backwards f).
Definition with_links (l : list nat) (f : frame) : frame := mkFrame (pose f) (base f) l (forwards f) (backwards f).
Definition with_forwards (c : cached) (f : frame) : frame := mkFrame (pose f) (base f) (links f) (Some c) (backwards f).
Definition with_backwards (t : T) (f : frame) : frame := mkFrame (pose f) (base f) (links f) (forwards f) (Some t).
Definition without_cache (f : frame) : frame := mkFrame (pose f) (base f) (links f) None None.

Fixpoint each (f : frames -> nat -> result frames) (l : list nat) (s : frames) : result frames :=
  match l with [] => Ok s | x :: l' => do s1 <- f s x; each f l' s1 end.

(** _kinematics_updated (579-580, 775-784); [limit] is the depth of recursion the interpreter allows *)
Fixpoint updated (limit : nat) (s : frames) (x : nat) : result frames :=
  match limit with
  | O => Raise RecursionError
  | S n => if root x then Raise RuntimeError
           else let s1 := upd s x (without_cache (s x)) in each (updated n) (links (s1 x)) s1
  end.

(** Sets of linked frames (547, 561, 568) *)
Definition insert (x : nat) (l : list nat) : list nat := if existsb (Nat.eqb x) l then l else x :: l.
Definition remove (x : nat) (l : list nat) : list nat := filter (fun y => negb (y =? x)) l.
Definition same_base (a b : option nat) : bool :=
  match a, b with None, None => true | Some x, Some y => x =? y | _, _ => false end.

(** set_base (582-584, 657-668), add_link (540-548), remove_link (550-569), which call each other; [k] bounds the nesting *)
Fixpoint set_base (k limit : nat) (s : frames) (x : nat) (b : option nat) : result frames :=
  match k with
  | O => Raise RecursionError
  | S k => if root x then match b with None => Ok s | Some _ => Raise RuntimeError end
           else if same_base (base (s x)) b then Ok s
           else do s1 <- match base (s x) with None => Ok s | Some old => remove_link k limit s old x false end;
                let s2 := upd s1 x (with_base b (s1 x)) in
                do s3 <- updated limit s2 x;
                match b with None => Ok s3 | Some b => add_link k limit s3 b x end
  end
with add_link (k limit : nat) (s : frames) (b x : nat) : result frames :=
  match k with
  | O => Raise RecursionError
  | S k => set_base k limit (upd s b (with_links (insert x (links (s b))) (s b))) x (Some b)
  end
with remove_link (k limit : nat) (s : frames) (b x : nat) (force : bool) : result frames :=
  match k with
  | O => Raise RecursionError
  | S k => if existsb (Nat.eqb x) (links (s b)) then set_base k limit (upd s b (with_links (remove x (links (s b))) (s b))) x None
           else if force then Raise RuntimeError else Ok s
  end.

(** Assigning position, orientation or pose (622-635, 649-655, 700-703): the pose changes and the caches are cleared *)
Definition move (limit : nat) (s : frames) (x : nat) (f : T -> T) : result frames :=
  updated limit (upd s x (with_pose (f (pose (s x))) (s x))) x.
(** lookat (756-773): the pose changes in place *)
Definition look (s : frames) (x : nat) (f : T -> T) : frames := upd s x (with_pose (f (pose (s x))) (s x)).

(** forwards_transformation (575-577, 705-711) *)
Fixpoint forwards_of (limit : nat) (s : frames) (x : nat) : result (frames * T) :=
  match limit with
  | O => Raise RecursionError
  | S n => if root x then Ok (s, one)
           else match forwards (s x) with
                | Some (Own t) => Ok (s, t)
                | Some ThePose => Ok (s, pose (s x))
                | None => match base (s x) with
                          | None => Ok (upd s x (with_forwards ThePose (s x)), pose (s x))
                          | Some b => do '(s1, t) <- forwards_of n s b;
                                      let t' := mul t (pose (s1 x)) in
                                      Ok (upd s1 x (with_forwards (Own t') (s1 x)), t')
                          end
                end
  end.
(** backwards_transformation (713-722) *)
Definition backwards_of (limit : nat) (s : frames) (x : nat) : result (frames * T) :=
  match backwards (s x) with
  | Some t => Ok (s, t)
  | None => do '(s1, t) <- forwards_of limit s x;
            Ok (upd s1 x (with_backwards (inv t) (s1 x)), inv t)
  end.
(** to_local_coordinates (739-754) of a transformation and of another frame *)
Definition to_local (limit : nat) (s : frames) (x : nat) (g : T) : result (frames * T) :=
  do '(s1, t) <- backwards_of limit s x; Ok (s1, mul t g).
Definition to_local_frame (limit : nat) (s : frames) (x y : nat) : result (frames * T) :=
  do '(s1, g) <- forwards_of limit s y; to_local limit s1 x g.

(** What a user may call *)
Inductive call :=
| Move (x : nat) (f : T -> T)
| SetBase (x : nat) (b : option nat)
| AddLink (b x : nat)
| RemoveLink (b x : nat) (force : bool)
| Forwards (x : nat)
| Backwards (x : nat)
| Local (x : nat) (g : T)
| LocalFrame (x y : nat).
(** A call and the transformation it returns, if any *)
Definition perform (limit : nat) (s : frames) (c : call) : result (frames * option T) :=
  match c with
  | Move x f => do s1 <- move limit s x f; Ok (s1, None)
  | SetBase x b => do s1 <- set_base 8 limit s x b; Ok (s1, None)
  | AddLink b x => do s1 <- add_link 8 limit s b x; Ok (s1, None)
  | RemoveLink b x force => do s1 <- remove_link 8 limit s b x force; Ok (s1, None)
  | Forwards x => do '(s1, t) <- forwards_of limit s x; Ok (s1, Some t)
  | Backwards x => do '(s1, t) <- backwards_of limit s x; Ok (s1, Some t)
  | Local x g => do '(s1, t) <- to_local limit s x g; Ok (s1, Some t)
  | LocalFrame x y => do '(s1, t) <- to_local_frame limit s x y; Ok (s1, Some t)
  end.
(** A program and the outcome of each call.  A call that raises leaves the frames unchanged; among the calls considered
    only removing a missing link raises, which it does first (561-563) *)
Fixpoint perform_all (limit : nat) (s : frames) (l : list call) : list (result (option T)) :=
  match l with
  | [] => []
  | c :: l' => match perform limit s c with
               | Ok (s1, t) => Ok t :: perform_all limit s1 l'
               | Raise e => Raise e :: perform_all limit s l'
               end
  end.
(** Detached frames at given poses *)
Definition detached (p : nat -> T) : frames := fun x => mkFrame (p x) None [] None None.
End Kinematics.
