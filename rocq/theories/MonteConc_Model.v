(** Model of the concurrent collection of results (hermespy/core/pymonte/actors.py):
    [MonteCarloActor.run]/[fetch_results] run in two threads of every actor and
    [MonteCarloCollector.run]/[fetch_results] in two threads of the collector
    ([max_concurrency=2], monte_carlo.py:365-371).  A batch of samples is a number;
    processing a future adds the contained batches to the result.  Python
    statements that touch shared data are the atomic steps. *)
From Coq Require Import List Arith Bool.
Import ListNotations.

(** Program counter of [MonteCarloCollector.run] (actors.py:180-198). *)
Inductive runpc :=
  | RTop                 (* evaluating [while self.__active] *)
  | RWait                (* inside [wait(...)] / about to process a ready future *)
  | RPop (f : nat)       (* future processed, before [self.__future_map.pop] *)
  | RDone.

(** Program counter of [MonteCarloCollector.fetch_results] (actors.py:236-252). *)
Inductive finpc :=
  | FNone                       (* not called yet *)
  | FProc (rest : list nat).    (* futures of the snapshot still to be processed *)

Record world := mkW {
  w_res : nat -> list nat;                     (* actor a: [__results] *)
  w_copy : nat -> option (nat * list nat);     (* actor a: fetch between copy and clear, for future f *)
  w_fut : nat -> option (list nat);            (* content of future f once ready *)
  w_map : list (nat * nat);                    (* [__future_map]: future, actor *)
  w_next : nat;                                (* next future *)
  w_active : bool;                             (* [__active] *)
  w_run : runpc;
  w_fin : finpc;
  w_made : list nat;                           (* batches computed so far *)
  w_count : list nat }.                        (* batches added to the results *)

Definition fset {X} (g : nat -> X) (k : nat) (v : X) : nat -> X := fun x => if x =? k then v else g x.

(** actors.py:186-187: one outstanding request per actor; nothing computed yet. *)
Definition w_init (n : nat) : world :=
  mkW (fun _ => []) (fun _ => None) (fun _ => None)
      (map (fun a => (a, a)) (seq 0 n)) n true RTop FNone [] [].

Inductive step : world -> world -> Prop :=
  (** actors.py:354-355: the actor's run thread stashes a new batch. *)
  | SAppend a b w : In a (map snd (w_map w)) -> ~ In b (w_made w) ->
      step w (mkW (fset (w_res w) a (w_res w a ++ [b])) (w_copy w) (w_fut w) (w_map w) (w_next w)
                  (w_active w) (w_run w) (w_fin w) (w_made w ++ [b]) (w_count w))
  (** actors.py:363 [results = self.__results.copy()]. *)
  | SCopy a f w : In (f, a) (w_map w) -> w_fut w f = None -> w_copy w a = None ->
      step w (mkW (w_res w) (fset (w_copy w) a (Some (f, w_res w a))) (w_fut w) (w_map w) (w_next w)
                  (w_active w) (w_run w) (w_fin w) (w_made w) (w_count w))
  (** actors.py:364-365 [self.__results.clear(); return results]. *)
  | SClear a f l w : w_copy w a = Some (f, l) ->
      step w (mkW (fset (w_res w) a []) (fset (w_copy w) a None) (fset (w_fut w) f (Some l)) (w_map w) (w_next w)
                  (w_active w) (w_run w) (w_fin w) (w_made w) (w_count w))
  (** actors.py:189. *)
  | SGuard w : w_run w = RTop ->
      step w (mkW (w_res w) (w_copy w) (w_fut w) (w_map w) (w_next w) (w_active w)
                  (if w_active w then RWait else RDone) (w_fin w) (w_made w) (w_count w))
  (** actors.py:191-194: wait for a ready future and process its samples. *)
  | SProcess f l w : w_run w = RWait -> In f (map fst (w_map w)) -> w_fut w f = Some l ->
      step w (mkW (w_res w) (w_copy w) (w_fut w) (w_map w) (w_next w) (w_active w)
                  (RPop f) (w_fin w) (w_made w) (w_count w ++ l))
  (** actors.py:197-198: pop the future, request the actor's next results. *)
  | SPop f a m1 m2 w : w_run w = RPop f -> w_map w = m1 ++ (f, a) :: m2 ->
      step w (mkW (w_res w) (w_copy w) (w_fut w) (m1 ++ m2 ++ [(w_next w, a)]) (S (w_next w)) (w_active w)
                  RTop (w_fin w) (w_made w) (w_count w))
  (** actors.py:242-246: deactivate, take the list of outstanding futures. *)
  | SFinish w : w_fin w = FNone ->
      step w (mkW (w_res w) (w_copy w) (w_fut w) (w_map w) (w_next w) false
                  (w_run w) (FProc (map fst (w_map w))) (w_made w) (w_count w))
  (** actors.py:247-250: all of them being ready, process them. *)
  | SFinProc f rest l w : w_fin w = FProc (f :: rest) ->
      (forall g, In g (f :: rest) -> w_fut w g <> None) -> w_fut w f = Some l ->
      step w (mkW (w_res w) (w_copy w) (w_fut w) (w_map w) (w_next w) (w_active w)
                  (w_run w) (FProc rest) (w_made w) (w_count w ++ l)).

Inductive reach (n : nat) : world -> Prop :=
  | reach_init : reach n (w_init n)
  | reach_step w w' : reach n w -> step w w' -> reach n w'.

(** Executions in which no batch is stashed while the same actor is between
    copying and clearing its list. *)
Inductive reach_atomic (n : nat) : world -> Prop :=
  | ra_init : reach_atomic n (w_init n)
  | ra_step w w' : reach_atomic n w -> step w w' ->
      (forall a, w_copy w a <> None -> w_res w' a = w_res w a \/ w_copy w' a = None) ->
      reach_atomic n w'.
