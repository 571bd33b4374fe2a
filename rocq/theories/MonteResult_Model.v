(** Model of hermespy/core/pymonte/scalar.py [ScalarEvaluationResult] and of the
    collector's use of it.  Floating point numbers are modelled as reals; numpy's
    division by zero (NaN) is modelled by [None]. *)
From Coq Require Import List Arith Bool Reals.
From Verif Require Import Base Monte_Model.
Import ListNotations.

(** scalar.py:45-92: settings; [cdf] is [_scalar_cdf] (scipy's [norm.cdf], not modelled). *)
Record settings := mkSettings { r_tol : R; r_delta : R; r_min : nat }.

(** scalar.py:68-76: argument checks of the constructor. *)
Definition make_settings (accuracy confidence : R) (min_num : nat) : result settings :=
  if Rlt_dec 1 confidence then Raise ValueError
  else if Rlt_dec confidence 0 then Raise ValueError
  else if Rlt_dec accuracy 0 then Raise ValueError
  else if min_num <? 2 then Raise ValueError
  else Ok (mkSettings accuracy confidence min_num).

(** The three arrays over the grid. *)
Record rstate := mkR { r_sum : coord -> R; r_sq : coord -> R; r_cnt : coord -> nat }.
(** scalar.py:88-90. *)
Definition r_init : rstate := mkR (fun _ => 0%R) (fun _ => 0%R) (fun _ => 0%nat).

Definition put {X} (f : coord -> X) (c : coord) (v : X) : coord -> X :=
  fun x => if coord_eqb x c then v else f x.

Section Results.
  Variable cdf : R -> R.
  Open Scope R_scope.

  (** scalar.py:101-125 [add_artifact].  [None]: an artifact without scalar
      representation. *)
  Definition add_artifact (cfg : settings) (st : rstate) (c : coord) (scalar : option R) (compute : bool)
    : rstate * bool :=
    match scalar with
    | None => (st, false)
    | Some x =>
        let sum := r_sum st c + x in
        let sq := r_sq st c + x ^ 2 in
        let count := S (r_cnt st c) in
        let st' := mkR (put (r_sum st) c sum) (put (r_sq st) c sq) (put (r_cnt st) c count) in
        if compute && (count mod r_min cfg =? 0)%nat then
          let std := sqrt ((sq - sum ^ 2 / INR count) / (INR count - 1)) in
          if Rlt_dec 0 std then
            (st', if Rlt_dec (2 * (1 - cdf (sqrt (INR count) * r_tol cfg / std))) (r_delta cfg)
                  then true else false)
          else (st', false)
        else (st', false)
    end.

  (** scalar.py:183-186 [to_array], one entry. *)
  Definition to_array (st : rstate) (c : coord) : option R :=
    match r_cnt st c with
    | O => None
    | n => Some (r_sum st c / INR n)
    end.

  (** actors.py:213-225, inner loop: one sample with one artifact per evaluator;
      returns whether the section's deactivation was requested. *)
  Fixpoint collect_sample (cfgs : list settings) (sts : list rstate) (c : coord)
    (artifacts : list (option R)) (compute : bool) : list rstate * bool :=
    match cfgs, sts, artifacts with
    | cfg :: cfgs', st :: sts', a :: arts' =>
        let (st1, confident) := add_artifact cfg st c a compute in
        let (rest, req) := collect_sample cfgs' sts' c arts' compute in
        (st1 :: rest, (compute && confident) || req)
    | _, _, _ => (sts, false)
    end.

  (** actors.py:208-225: all samples of a fetched list; the list of requests is what
      reaches the queue manager. *)
  Fixpoint collect (cfgs : list settings) (sts : list rstate)
    (samples : list (coord * list (option R))) (compute : bool) : list rstate * list coord :=
    match samples with
    | [] => (sts, [])
    | (c, arts) :: t =>
        let (sts1, req) := collect_sample cfgs sts c arts compute in
        let (sts2, reqs) := collect cfgs sts1 t compute in
        (sts2, if req then c :: reqs else reqs)
    end.
End Results.
