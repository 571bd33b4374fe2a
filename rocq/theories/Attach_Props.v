(** Links between waveforms and their routines: C38. *)
From Coq Require Import List Arith Bool Lia.
From Verif Require Import Base Attach_Model Attach_Proofs.
Import ListNotations.

(** After any history of constructing and (re)assigning synchronizations or channel
    estimators, no call has raised, and every waveform uses a routine that reports
    this waveform; in particular no routine is used by two waveforms. *)
Theorem C38_routines_report_their_waveform : forall (k : kind) (l : list aop),
  k = Sync \/ k = Est ->
  let s := fst (arun k a_empty l) in
  Forall (fun e => e = None) (snd (arun k a_empty l)) /\
  (forall w, w < a_wfs s -> exists v, c_slot (a_links s) w = Some v /\ owner (a_links s) v = Some w) /\
  (forall w w' v, c_slot (a_links s) w = Some v -> c_slot (a_links s) w' = Some v -> w = w').
Proof.
  intros k l Hk s. destruct (arun_ok k l a_empty ok_empty) as [H1 H2].
  assert (HF : Forall (fun e => e = None) (snd (arun k a_empty l))) by (apply H1; destruct Hk; congruence).
  specialize (H2 HF). fold s in H2. destruct H2 as (C1 & C2 & C3). split; [auto|]. split; [auto|].
  intros w w' v Hw Hw'. destruct (C1 w (C2 _ _ Hw)) as (y & Y1 & Y2). destruct (C1 w' (C2 _ _ Hw')) as (z & Z1 & Z2). congruence.
Qed.
Print Assumptions C38_routines_report_their_waveform.

(** For channel equalizers the same holds as long as no call has raised. *)
Theorem C38_equalizers_report_their_waveform : forall l : list aop,
  Forall (fun e => e = None) (snd (arun Equ a_empty l)) ->
  let s := fst (arun Equ a_empty l) in
  (forall w, w < a_wfs s -> exists v, c_slot (a_links s) w = Some v /\ owner (a_links s) v = Some w) /\
  (forall w w' v, c_slot (a_links s) w = Some v -> c_slot (a_links s) w' = Some v -> w = w').
Proof.
  intros l HF s. destruct (arun_ok Equ l a_empty ok_empty) as [_ H2]. specialize (H2 HF). fold s in H2.
  destruct H2 as (C1 & C2 & C3). split; [auto|].
  intros w w' v Hw Hw'. destruct (C1 w (C2 _ _ Hw)) as (y & Y1 & Y2). destruct (C1 w' (C2 _ _ Hw')) as (z & Z1 & Z2). congruence.
Qed.
Print Assumptions C38_equalizers_report_their_waveform.

(** Effect of a single assignment [w.routine = v] after any history without exceptions:
    the waveform uses [v] afterwards and [v] reports it; the only other waveform whose
    routine may change is the one [v] reported before; the other routines report what they
    reported before.  For equalizers the alternative is an exception, raised exactly when
    [v] reports another waveform. *)
Theorem C38_effect_of_an_assignment : forall (k : kind) (l : list aop) (w v : nat),
  Forall (fun e => e = None) (snd (arun k a_empty l)) ->
  let s := fst (arun k a_empty l) in
  w < a_wfs s -> v < length (c_owner (a_links s)) ->
  let s' := fst (astep k s (Assign w v)) in
  let foreign := exists u, owner (a_links s) v = Some u /\ u <> w in
  (snd (astep k s (Assign w v)) <> None <-> k = Equ /\ foreign) /\
  (snd (astep k s (Assign w v)) = None ->
     c_slot (a_links s') w = Some v /\ owner (a_links s') v = Some w /\
     (forall x, x <> w -> owner (a_links s) v <> Some x -> c_slot (a_links s') x = c_slot (a_links s) x) /\
     (forall x, x < length (c_owner (a_links s)) -> x <> v -> owner (a_links s') x = owner (a_links s) x)).
Proof.
  intros k l w v HF s Hw Hv. destruct (arun_ok k l a_empty ok_empty) as [_ H2]. specialize (H2 HF). fold s in H2. unfold ok in H2.
  cbn [astep]. unfold exists_wf, exists_rt. rewrite (proj2 (Nat.ltb_lt _ _) Hw), (proj2 (Nat.ltb_lt _ _) Hv). cbn [andb fst snd a_links].
  destruct k; cbn [assign].
  - destruct (sync_assign_consistent 2 _ _ _ w v H2 Hw Hv) as (s1 & E & R1 & R2 & R3 & R4 & R5). unfold depth. rewrite E. cbn [fst snd a_links].
    split; [split; [congruence|intros [H _]; discriminate]|]. intros _. split; [auto|]. split; [|auto].
    destruct R1 as (C1 & _). destruct (C1 w (or_intror eq_refl)) as (y & Y1 & Y2). congruence.
  - destruct (est_assign_consistent _ _ _ w v H2 Hw Hv) as (s1 & E & R1 & R2 & R3 & R4 & R5). unfold depth. rewrite E. cbn [fst snd a_links].
    split; [split; [congruence|intros [H _]; discriminate]|]. intros _. split; [auto|]. split; [|auto].
    destruct R1 as (C1 & _). destruct (C1 w (or_intror eq_refl)) as (y & Y1 & Y2). congruence.
  - destruct (eq_assign_cases _ _ _ w v H2 Hw Hv) as [[Ho (s1 & E & R1 & R2 & R3 & R4 & R5)]|[Ho E]]; rewrite E; cbn [fst snd a_links].
    + split; [split; [congruence|]|].
      * intros [_ (u & Hu & Hne)]. destruct Ho; congruence.
      * intros _. split; [auto|]. split; [|auto].
        destruct R1 as (C1 & _). destruct (C1 w (or_intror eq_refl)) as (y & Y1 & Y2). congruence.
    + split; [split; [auto|discriminate]|discriminate].
Qed.
Print Assumptions C38_effect_of_an_assignment.

(** Two waveforms exchange and share routines. *)
Definition ex_hist : list aop :=
  [NewWaveform None; NewRoutine None; NewWaveform (Some 1); Assign 0 1; Attach 1 (Some 1); NewRoutine (Some 0); Assign 1 0; Attach 3 None].
Example C38_hypotheses_met :
  a_wfs (fst (arun Sync a_empty ex_hist)) = 2 /\ a_wfs (fst (arun Est a_empty ex_hist)) = 2 /\
  (let s := fst (arun Sync a_empty ex_hist) in
   map (c_slot (a_links s)) [0; 1] = [Some 5; Some 0] /\ length (c_owner (a_links s)) = 6) /\
  Forall (fun e => e = None) (snd (arun Equ a_empty [NewWaveform None; NewRoutine None; NewWaveform (Some 1); NewRoutine None; Assign 0 2])).
Proof. repeat split; repeat constructor. Qed.

(** A failing equalizer assignment leaves the waveform with an equalizer that reports another waveform. *)
Theorem C38_failed_assignment_changes_nothing_refuted :
  exists (l : list aop) (w v : nat), let s := fst (arun Equ a_empty l) in
    Forall (fun e => e = None) (snd (arun Equ a_empty l)) /\ w < a_wfs s /\
    snd (astep Equ s (Assign w v)) = Some RuntimeError /\
    let s' := fst (astep Equ s (Assign w v)) in
    c_slot (a_links s') w <> c_slot (a_links s) w /\
    c_slot (a_links s') w = Some v /\ owner (a_links s') v <> Some w.
Proof.
  exists [NewWaveform None; NewWaveform None], 0, 1. cbn. repeat split; try discriminate; auto.
Qed.
Print Assumptions C38_failed_assignment_changes_nothing_refuted.

(** A routine that was replaced still reports the waveform it no longer serves; detaching
    such a stale channel estimator removes the estimator the waveform actually uses. *)
Theorem C38_detaching_a_stale_estimator_is_harmless_refuted :
  exists (l : list aop) (w v x : nat), let s := fst (arun Est a_empty l) in
    c_slot (a_links s) w = Some x /\ x <> v /\ owner (a_links s) v = Some w /\
    let s' := fst (astep Est s (Attach v None)) in
    snd (astep Est s (Attach v None)) = None /\ c_slot (a_links s') w <> Some x.
Proof.
  exists [NewWaveform None; NewRoutine None; Assign 0 1], 0, 0, 1. cbn. repeat split; try discriminate; auto.
Qed.
Print Assumptions C38_detaching_a_stale_estimator_is_harmless_refuted.
