(** Model of hermespy/core/hooks.py (callback registration) and
    hermespy/core/random_node.py (hierarchy of random number generators). *)
From Coq Require Import List Arith Bool ZArith.
From Verif Require Import Base.
Import ListNotations.

(** * Hooks *)

(** Hook objects, hookables and callbacks are numbers.  hooks.py:20-55 [Hook]:
    the hookable it was created for and its callback. *)
Record hook := mkHook { hk_owner : nat; hk_callback : nat }.

(** hooks.py:58-65: one set of hooks per hookable; [hs_hooks] are all hook
    objects constructed so far, a hook is identified by its position. *)
Record hstate := mkHS { hs_hooks : list hook; hs_sets : nat -> list nat }.

Definition hs_empty : hstate := mkHS [] (fun _ => []).

Definition set_update (g : nat -> list nat) (hb : nat) (l : list nat) : nat -> list nat :=
  fun x => if x =? hb then l else g x.
Definition mem (x : nat) (l : list nat) : bool := existsb (Nat.eqb x) l.

(** Operations a program can perform. *)
Inductive hop :=
  | AddCallback (hb cb : nat)     (* hookable.add_callback(cb) *)
  | AddHook (hb h : nat)          (* hookable.add_hook(h), also for hooks created for another hookable *)
  | RemoveHook (hb h : nat)       (* hookable.remove_hook(h) *)
  | Unhook (h : nat).             (* h.remove() *)

(** hooks.py:67-76 [add_hook]: [set.add]. *)
Definition add_hook (s : hstate) (hb h : nat) : hstate :=
  mkHS (hs_hooks s)
       (set_update (hs_sets s) hb
          (if mem h (hs_sets s hb) then hs_sets s hb else hs_sets s hb ++ [h])).
(** hooks.py:99-108 [remove_hook]: [set.discard]. *)
Definition remove_hook (s : hstate) (hb h : nat) : hstate :=
  mkHS (hs_hooks s) (set_update (hs_sets s) hb (filter (fun x => negb (x =? h)) (hs_sets s hb))).
(** hooks.py:78-97 [add_callback]. *)
Definition add_callback (s : hstate) (hb cb : nat) : hstate :=
  add_hook (mkHS (hs_hooks s ++ [mkHook hb cb]) (hs_sets s)) hb (length (hs_hooks s)).

(** Operations on hooks that were never constructed cannot be written; they are
    no-ops here. *)
Definition apply_hop (s : hstate) (o : hop) : hstate :=
  match o with
  | AddCallback hb cb => add_callback s hb cb
  | AddHook hb h => if h <? length (hs_hooks s) then add_hook s hb h else s
  | RemoveHook hb h => remove_hook s hb h
  | Unhook h => match nth_error (hs_hooks s) h with
                | Some k => remove_hook s (hk_owner k) h        (* hooks.py:52-55 *)
                | None => s
                end
  end.

Section Notify.
  Variable V : Type.
  (** What a callback does to hookables when it is invoked with a value (at most
      one registration call per invocation, a simplification). *)
  Variable react : nat -> V -> option hop.
  (** The order in which CPython iterates a set of hooks (by hash, i.e. address). *)
  Variable order : list nat -> list nat.

  (** hooks.py:119-120: the loop; CPython raises RuntimeError at the next step of
      the iteration if the size of the set changed.  Returns the invoked hooks. *)
  Fixpoint notify_loop (size hb : nat) (todo : list nat) (v : V) (s : hstate)
    : hstate * list nat * option exn :=
    if length (hs_sets s hb) =? size then
      match todo with
      | [] => (s, [], None)
      | h :: t =>
          let cb := match nth_error (hs_hooks s) h with Some k => hk_callback k | None => 0 end in
          let s1 := match react cb v with Some o => apply_hop s o | None => s end in
          let '(s2, l, e) := notify_loop size hb t v s1 in (s2, h :: l, e)
      end
    else (s, [], Some RuntimeError).

  (** hooks.py:110-120 [notify]. *)
  Definition notify (s : hstate) (hb : nat) (v : V) : hstate * list nat * option exn :=
    notify_loop (length (hs_sets s hb)) hb (order (hs_sets s hb)) v s.
End Notify.

(** * Random nodes *)

(** What a numpy generator was seeded with: [default_rng(seed)] or, for
    [default_rng(None)], fresh entropy of the operating system (numbered). *)
Inductive source := Seeded (z : Z) | Entropy (k : nat).

(** random_node.py:67-87.  A generator is its source and the number of values
    drawn from it.  Assigning generator objects directly ([_rng] setter, 105-107)
    is not modelled, so generators are never shared. *)
Record rnode := mkRN { rn_mother : option nat; rn_gen : option (source * nat); rn_seed : option Z }.

Record rstate_ := mkRS { rs_nodes : list rnode; rs_entropy : nat }.
Definition rs_empty : rstate_ := mkRS [] 0.

(** [default_rng(seed)]. *)
Definition default_rng (seed : option Z) (entropy : nat) : source * nat :=
  match seed with
  | Some z => (Seeded z, entropy)
  | None => (Entropy entropy, S entropy)
  end.

Definition replace_node (l : list rnode) (i : nat) (n : rnode) : list rnode :=
  firstn i l ++ n :: skipn (S i) l.

Inductive rop :=
  | New (mother : option nat) (seed : option Z)   (* RandomNode(mother, seed) *)
  | SetSeed (n : nat) (seed : option Z)           (* node.seed = seed *)
  | SetMother (n : nat) (m : option nat)          (* node.random_mother = m *)
  | Draw (n count : nat).                         (* node._rng.<...>(count) *)

(** random_node.py:89-103 [_rng]: the node whose generator is used; the recursion
    through a cycle of mothers ends in a RecursionError. *)
Fixpoint rng_root (fuel : nat) (s : rstate_) (n : nat) : result nat :=
  match fuel with
  | 0 => Raise RecursionError
  | S k =>
      match nth_error (rs_nodes s) n with
      | None => Raise IndexError
      | Some nd => match rn_gen nd with
                   | Some _ => Ok n
                   | None => match rn_mother nd with
                             | Some m => rng_root k s m
                             | None => Raise AttributeError
                             end
                   end
      end
  end.
(** A chain without repetition is at most as long as there are nodes. *)
Definition root_of (s : rstate_) (n : nat) : result nat := rng_root (S (length (rs_nodes s))) s n.

Section Draws.
  Variable V : Type.
  Variable stream : source -> nat -> V.           (* the bit stream of a generator *)

  (** Drawing [count] values; returns the node whose generator was used. *)
  Definition draw (s : rstate_) (n count : nat) : rstate_ * result (nat * list V) :=
    match root_of s n with
    | Raise e => (s, Raise e)
    | Ok r =>
        match nth_error (rs_nodes s) r with
        | Some (mkRN mo (Some (src, pos)) sd) =>
            (mkRS (replace_node (rs_nodes s) r (mkRN mo (Some (src, pos + count)) sd)) (rs_entropy s),
             Ok (r, map (stream src) (seq pos count)))
        | _ => (s, Raise AttributeError)
        end
    end.

  Definition rstep (s : rstate_) (o : rop) : rstate_ * list (result (nat * list V)) :=
    match o with
    | New mother seed =>
        (* random_node.py:74-87, seed setter 129-132: a generator is always created *)
        let (g, e) := default_rng seed (rs_entropy s) in
        (mkRS (rs_nodes s ++ [mkRN mother (Some (g, 0)) seed]) e, [])
    | SetSeed n seed =>
        (* random_node.py:129-132 *)
        match nth_error (rs_nodes s) n with
        | None => (s, [])
        | Some nd =>
            let (g, e) := default_rng seed (rs_entropy s) in
            (mkRS (replace_node (rs_nodes s) n (mkRN (rn_mother nd) (Some (g, 0)) seed)) e, [])
        end
    | SetMother n m =>
        (* random_node.py:146-151 *)
        match nth_error (rs_nodes s) n with
        | None => (s, [])
        | Some nd =>
            match m with
            | None =>
                let (g, e) := default_rng (rn_seed nd) (rs_entropy s) in
                (mkRS (replace_node (rs_nodes s) n (mkRN None (Some (g, 0)) (rn_seed nd))) e, [])
            | Some _ =>
                (mkRS (replace_node (rs_nodes s) n (mkRN m None (rn_seed nd))) (rs_entropy s), [])
            end
        end
    | Draw n count => let (s', r) := draw s n count in (s', [r])
    end.

  Fixpoint rrun (s : rstate_) (ops : list rop) : rstate_ * list (result (nat * list V)) :=
    match ops with
    | [] => (s, [])
    | o :: t => let (s1, a) := rstep s o in let (s2, b) := rrun s1 t in (s2, a ++ b)
    end.
End Draws.
