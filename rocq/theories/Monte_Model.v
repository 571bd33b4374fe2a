(** Model of hermespy/core/pymonte: queue manager, actor batch loop, scalar
    results and the set-up performed by [MonteCarlo.simulate].

    Ray's remote calls are modelled as atomic method calls (Ray executes the
    methods of the queue manager one at a time). *)
From Coq Require Import List Arith Bool.
From Verif Require Import Base.
Import ListNotations.

(** Grid section coordinates. *)
Definition coord := list nat.
Definition coord_eqb (a b : coord) : bool := if list_eq_dec Nat.eq_dec a b then true else false.

(** [np.ndindex] of the dimensions: all coordinate tuples in row-major order (actors.py:61). *)
Fixpoint ndindex (dims : list nat) : list coord :=
  match dims with
  | [] => [[]]
  | n :: t => flat_map (fun i => map (cons i) (ndindex t)) (seq 0 n)
  end.

(** * Queue manager *)

(** actors.py:23-75 [MonteCarloQueueManager].  [q_count] is [__grid_task_count],
    [q_active] the rows of [__active_section_coordinates];
    [__num_active_sections] equals its number of rows throughout and
    [__active_section_flags] is only displayed, both are not stored. *)
Record queue := mkQueue {
  q_active : list coord;
  q_count : coord -> nat;
  q_samples : nat;
  q_batch : nat }.

(** actors.py:37-75.  An empty grid has the single section [()] and batch size one. *)
Definition queue_new (dims : list nat) (num_samples : nat) (batch_size : option nat) : queue :=
  let secs := ndindex dims in
  mkQueue secs (fun _ => 0) num_samples
    (match dims with
     | [] => 1
     | _ => match batch_size with Some b => b | None => length secs end
     end).

(** [np.delete] of the first row equal to [c]. *)
Fixpoint remove_first (c : coord) (l : list coord) : list coord :=
  match l with
  | [] => []
  | x :: t => if coord_eqb x c then t else x :: remove_first c t
  end.

(** actors.py:111-133 [disable_section]. *)
Definition disable_section (q : queue) (c : coord) : queue :=
  mkQueue (remove_first c (q_active q)) (q_count q) (q_samples q) (q_batch q).

Definition bump (f : coord -> nat) (c : coord) : coord -> nat :=
  fun x => if coord_eqb x c then S (f x) else f x.

(** actors.py:91-107: the loop of [next_batch]; [n] iterations remain, [t] is the
    loop variable. *)
Fixpoint next_loop (n t skip : nat) (q : queue) : queue * list coord :=
  match n with
  | 0 => (q, [])
  | S n' =>
      let i := (t - skip) mod length (q_active q) in
      let c := nth i (q_active q) [] in
      let count := S (q_count q c) in
      let q1 := mkQueue (q_active q) (bump (q_count q) c) (q_samples q) (q_batch q) in
      if q_samples q <=? count then
        let q2 := disable_section q1 c in
        match q_active q2 with
        | [] => (q2, [c])
        | _ => let (q3, b) := next_loop n' (S t) (S skip) q2 in (q3, c :: b)
        end
      else let (q3, b) := next_loop n' (S t) skip q1 in (q3, c :: b)
  end.

(** actors.py:77-109 [next_batch]. *)
Definition next_batch (q : queue) : queue * list coord :=
  match q_active q with
  | [] => (q, [])
  | _ => next_loop (q_batch q) 0 0 q
  end.

(** actors.py:135-148 [query_progress], first component as a fraction
    (numerator, denominator).  [__grid_task_count[coordinates]] with the
    two-dimensional coordinate array is numpy fancy indexing of the *first* axis:
    every entry [k] of every coordinate selects the whole sub-array [k].  An index
    beyond the first axis raises. *)
Definition sub_sum (q : queue) (tail_dims : list nat) (k : nat) : nat :=
  list_sum (map (fun t => q_count q (k :: t)) (ndindex tail_dims)).
Definition query_progress (dims : list nat) (q : queue) : result (nat * nat) :=
  let total := length (ndindex dims) * q_samples q in
  match q_active q with
  | [] => Ok (1, 1)
  | _ =>
      match dims with
      | [] => Ok ((1 - length (q_active q)) * q_samples q, total)
      | n :: tail =>
          if forallb (forallb (fun k => k <? n)) (q_active q) then
            Ok ((length (ndindex dims) - length (q_active q)) * q_samples q
                + list_sum (map (sub_sum q tail) (concat (q_active q))), total)
          else Raise IndexError
      end
  end.

(** * Actor *)

(** A grid dimension as seen by the actor: grid.py:GridDimension.  Stage names
    are numbers. *)
Record dimension := mkDim {
  d_id : nat;                  (* identity of the dimension object *)
  d_points : nat;              (* num_sample_points *)
  d_first : option nat;        (* first_impact *)
  d_last : option nat }.       (* last_impact *)

(** [list.index], only called after a membership test. *)
Fixpoint index_of (x : nat) (l : list nat) : option nat :=
  match l with
  | [] => None
  | y :: t => if x =? y then Some 0 else option_map S (index_of x t)
  end.

(** actors.py:400-427: first and last stage to be executed. *)
Definition impact_step (stages : list nat) (acc : nat * nat) (d : dimension) : nat * nat :=
  let n := length stages in
  let first := match d_first d with
               | None => 0
               | Some s => match index_of s stages with
                           | Some i => Nat.min (fst acc) i
                           | None => fst acc
                           end
               end in
  let last := match d_last d with
              | None => n - 1
              | Some s => match index_of s stages with
                          | Some i => Nat.max (snd acc) i
                          | None => snd acc
                          end
              end in
  (first, last).
Definition impacts (stages : list nat) (changed : list dimension) : nat * nat :=
  let n := length stages in
  let (first, last) := fold_left (impact_step stages) changed (n, 0) in
  (if n <=? first then 0 else first, if last =? 0 then n - 1 else last).

Section Actor.
  (** [V]: what a stage stores in the investigated object; [A]: stage arguments;
      [W]: random draws.  [f s cfg a outs w] is the result of executing stage [s]
      with arguments [a] while the grid is configured to [cfg], the other stages
      have stored [outs] and the draw is [w]. *)
  Variables V A W : Type.
  Variable f : nat -> list nat -> A -> (nat -> V) -> W -> V.
  Variable stages : list nat.                 (* stage_identifiers() *)
  Variable args : nat -> list A.              (* __stage_arguments, [()] by default *)
  Variable draws : nat -> W.
  Variable grid : list dimension.             (* actor grid *)

  Record astate := mkA { a_outs : nat -> V; a_draw : nat; a_cfg : list nat }.

  Definition set_out (o : nat -> V) (s : nat) (v : V) : nat -> V :=
    fun x => if x =? s then v else o x.

  (** One call of a stage executor. *)
  Definition exec_stage (s : nat) (st : astate) (a : A) : astate :=
    mkA (set_out (a_outs st) s (f s (a_cfg st) a (a_outs st) (draws (a_draw st))))
        (S (a_draw st)) (a_cfg st).

  (** actors.py:316-338 [__execute_stages] for [k = stop + 1 - start] remaining
      stages.  Instead of evaluator artifacts the stage outputs the evaluators
      look at are recorded. *)
  Fixpoint execute_stages (k s : nat) (st : astate) : astate * list (nat -> V) :=
    match k with
    | 0 => (st, [a_outs st])
    | S k' =>
        fold_left
          (fun acc a =>
             let '(st0, arts) := acc in
             let '(st1, arts1) := execute_stages k' (S s) (exec_stage s st0 a) in
             (st1, arts ++ arts1))
          (args s) (st, [])
    end.

  (** actors.py:418-434 of grid.py [configure_point] on dimension [d]. *)
  Definition configure (st : astate) (d i : nat) : result astate :=
    match nth_error grid d with
    | None => Raise IndexError
    | Some dim => if i <? d_points dim
                  then Ok (mkA (a_outs st) (a_draw st)
                               (firstn d (a_cfg st) ++ i :: skipn (S d) (a_cfg st)))
                  else Raise ValueError
    end.

  Fixpoint configure_all (l : list (nat * nat)) (st : astate) : result astate :=
    match l with
    | [] => Ok st
    | (d, i) :: t => do st' <- configure st d i; configure_all t st'
    end.

  Definition enumerate {B} (l : list B) : list (nat * B) := combine (seq 0 (length l)) l.

  (** actors.py:390-393: dimensions whose index changed, with their new index. *)
  Definition changed_dims (old new : list nat) : list (nat * nat) :=
    filter (fun p => negb (nth (fst p) old 0 =? snd p)) (enumerate new).

  (** A Monte Carlo sample: the section it is stored under, its index within the
      section run and the stage outputs it was evaluated from. *)
  Record sample := mkSample { s_section : list nat; s_index : nat; s_outs : nat -> V; s_cfg : list nat }.

  (** actors.py:387-438: one section of the batch. *)
  Definition run_section (st : astate) (recent section : list nat) : result (astate * list sample) :=
    let changed := changed_dims recent section in
    do st1 <- configure_all changed st;
    let dims := map (fun p => nth (fst p) grid (mkDim 0 0 None None)) changed in
    let (first, last) := impacts stages dims in
    let (st2, arts) := execute_stages (S last - first) first st1 in
    Ok (st2, map (fun p => mkSample section (fst p) (snd p) (a_cfg st1)) (enumerate arts)).

  Fixpoint run_sections (st : astate) (recent : list nat) (batch : list (list nat))
    : result (astate * list sample) :=
    match batch with
    | [] => Ok (st, [])
    | sec :: t =>
        do '(st1, s1) <- run_section st recent sec;
        do '(st2, s2) <- run_sections st1 sec t;
        Ok (st2, s1 ++ s2)
    end.

  (** actors.py:367-452 [__run_batch] without the exception handler. *)
  Definition run_batch (st : astate) (batch : list (list nat)) : result (astate * list sample) :=
    match batch with
    | [] => Raise IndexError
    | first :: _ =>
        do st1 <- configure_all (enumerate first) st;
        run_sections st1 first batch
    end.

  (** The handler (actors.py:443-452) with [catch_exceptions]: the batch's samples are dropped. *)
  Definition run_batch_caught (st : astate) (batch : list (list nat)) : list sample :=
    match run_batch st batch with Ok (_, s) => s | Raise _ => [] end.
End Actor.
Arguments a_outs {V}.
Arguments a_cfg {V}.
Arguments a_draw {V}.
Arguments mkA {V}.
Arguments s_section {V}.
Arguments s_outs {V}.
Arguments s_cfg {V}.
Arguments s_index {V}.

(** * [MonteCarlo.simulate]: which grid is handed to whom *)

(** monte_carlo.py:305-309: the sort key. *)
Definition sort_key (stages : list nat) (d : dimension) : nat :=
  match d_first d with
  | None => 0
  | Some s => match index_of s stages with Some i => i | None => 0 end
  end.

(** monte_carlo.py:311 [list.sort] is stable. *)
Fixpoint insert_dim (stages : list nat) (d : dimension) (l : list dimension) : list dimension :=
  match l with
  | [] => [d]
  | x :: t => if sort_key stages d <? sort_key stages x then d :: x :: t
              else x :: insert_dim stages d t
  end.
Definition sort_dims (stages : list nat) (l : list dimension) : list dimension :=
  fold_left (fun acc d => insert_dim stages d acc) l [].

(** monte_carlo.py:357-371: the queue manager and the collector index the
    unsorted dimensions, the actors the sorted ones. *)
Definition queue_dims (dims : list dimension) : list nat := map d_points dims.
Definition actor_grid (stages : list nat) (dims : list dimension) : list dimension := sort_dims stages dims.

(** Point index an object's dimension is configured to when an actor runs section
    [c]: actors.py:379-381 configures [grid[j]] to [c[j]]. *)
Definition configured_point (grid : list dimension) (c : coord) (id : nat) : option nat :=
  option_map snd (find (fun p => d_id (fst p) =? id) (combine grid c)).
