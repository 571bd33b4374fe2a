(** Properties of result collection. *)
From Coq Require Import List Arith Bool Reals Lia Lra.
From Verif Require Import Base BaseLemmas Monte_Model Monte_Proofs MonteResult_Model MonteResult_Spec
  MonteResult_Proofs MonteConc_Model MonteConc_Proofs.
Import ListNotations.
Open Scope R_scope.

(** ** C09: estimates and early stopping *)

(** For every evaluator and every sequence of collected samples, the estimate
    reported for a section is the arithmetic mean of the scalars this evaluator
    collected in this section; sections without scalars report nothing. *)
Theorem C09_estimates_are_section_means :
  forall cdf cfgs samples compute sts reqs e st c,
  Forall (fun s => (2 <= r_min s)%nat) cfgs ->
  Forall (fun p => length (snd p) = length cfgs) samples ->
  collect cdf cfgs (map (fun _ => r_init) cfgs) samples compute = (sts, reqs) ->
  nth_error sts e = Some st ->
  to_array st c = let l := scalars_of c (evaluator_history e samples) in
                  match l with [] => None | _ => Some (mean l) end.
Proof.
  intros cdf cfgs samples compute sts reqs e st c Hm Hl H He.
  pose proof (collect_spec cdf cfgs compute Hm samples (map (fun _ => r_init) cfgs) []) as S.
  rewrite H in S. destruct S as [_ S]; auto.
  { now rewrite map_length. }
  { intros e' st' He'. rewrite nth_error_map in He'. destruct (nth_error cfgs e'); [|discriminate].
    injection He' as <-. apply tracks_init. }
  destruct (S e st He c) as (S1 & _ & S3). cbn [app] in *.
  unfold to_array, mean; rewrite S1, S3.
  destruct (scalars_of c (evaluator_history e samples)); auto.
Qed.
Print Assumptions C09_estimates_are_section_means.

(** A section's deactivation is requested exactly when, for at least one evaluator,
    the number of scalars collected in the section is a multiple of the required
    minimum, their sample variance is positive and the normal estimate of the
    error probability lies below the threshold. *)
Theorem C09_section_stops_iff_some_evaluator_is_confident :
  forall cdf cfgs samples c arts sts reqs,
  Forall (fun s => (2 <= r_min s)%nat) cfgs ->
  Forall (fun p => length (snd p) = length cfgs) (samples ++ [(c, arts)]) ->
  collect cdf cfgs (map (fun _ => r_init) cfgs) samples true = (sts, reqs) ->
  snd (collect_sample cdf cfgs sts c arts true) = true <->
  exists e cfg, nth_error cfgs e = Some cfg /\ nth e arts None <> None /\
    stop_rule cdf (r_tol cfg) (r_delta cfg) (r_min cfg)
      (scalars_of c (evaluator_history e (samples ++ [(c, arts)]))).
Proof.
  intros cdf cfgs samples c arts sts reqs Hm Hl H.
  apply Forall_app in Hl as [Hl1 Hl2]. apply Forall_cons_iff in Hl2 as [Hl2 _]; cbn [snd] in Hl2.
  pose proof (collect_spec cdf cfgs true Hm samples (map (fun _ => r_init) cfgs) []) as S.
  rewrite H in S. destruct S as [SL S]; auto.
  { now rewrite map_length. }
  { intros e' st' He'. rewrite nth_error_map in He'. destruct (nth_error cfgs e'); [|discriminate].
    injection He' as <-. apply tracks_init. }
  cbn [app] in S.
  pose proof (collect_sample_spec cdf c true cfgs sts arts
     (map (fun e => evaluator_history e samples) (seq 0 (length cfgs)))) as C.
  rewrite map_length, seq_length in C. specialize (C SL Hl2 eq_refl Hm).
  assert (Hh : forall e h, nth_error (map (fun e => evaluator_history e samples) (seq 0 (length cfgs))) e = Some h ->
                h = evaluator_history e samples).
  { intros e h He. rewrite nth_error_map, nth_error_seq in He.
    destruct (e <? length cfgs)%nat; [|discriminate]. now injection He as <-. }
  specialize (C ltac:(intros e st h He Hx; rewrite (Hh e h Hx); auto)).
  destruct (collect_sample cdf cfgs sts c arts true) as [sts' req]; cbn [snd].
  destruct C as (_ & _ & C). rewrite C. unfold evaluator_history at 1.
  split.
  - intros (_ & e & cfg & h & He & Hx & Hn & Hs). exists e, cfg.
    unfold evaluator_history; rewrite map_app. rewrite (Hh e h Hx) in Hs. auto.
  - intros (e & cfg & He & Hn & Hs). split; auto. exists e, cfg, (evaluator_history e samples).
    split; auto. split; [|split; auto].
    + rewrite nth_error_map, nth_error_seq.
      assert (e < length cfgs)%nat by (apply nth_error_Some; congruence).
      destruct (Nat.ltb_spec e (length cfgs)); [auto|lia].
    + unfold evaluator_history in Hs; rewrite map_app in Hs; auto.
Qed.
Print Assumptions C09_section_stops_iff_some_evaluator_is_confident.

(** No section is stopped before the required minimum number of samples, and with
    zero tolerance (the default) none is ever stopped. *)
Theorem C09_no_stop_before_the_minimum :
  forall cdf tol delta min_num l, (1 <= min_num)%nat ->
  stop_rule cdf tol delta min_num l -> (min_num <= length l)%nat.
Proof.
  intros cdf tol delta min_num l H1 [[Hn Hm] _].
  apply Nat.mod_divides in Hm as [k Hk]; [|lia]. destruct k; nia.
Qed.
Print Assumptions C09_no_stop_before_the_minimum.

Theorem C09_zero_tolerance_never_stops :
  forall cdf delta min_num l, cdf 0 = 1 / 2 -> delta <= 1 -> ~ stop_rule cdf 0 delta min_num l.
Proof.
  intros cdf delta min_num l H0 Hd [_ [_ H]].
  unfold Rdiv in H; rewrite Rmult_0_r, Rmult_0_l, H0 in H. lra.
Qed.
Print Assumptions C09_zero_tolerance_never_stops.

(** A section whose samples are all equal is never stopped early, however many
    samples were collected. *)
Theorem C09_constant_samples_never_stop :
  forall cdf tol delta min_num x n, ~ stop_rule cdf tol delta min_num (repeat x n).
Proof.
  intros cdf tol delta min_num x n ((Hn & _) & Hv & _). revert Hv. rewrite repeat_length in Hn.
  assert (Hsum : Rsum (repeat x n) = INR n * x).
  { clear Hn; induction n as [|n IH]; [cbn; lra|]. cbn [repeat Rsum fold_right]; fold (Rsum (repeat x n)).
    rewrite IH, S_INR; lra. }
  assert (Hmean : mean (repeat x n) = x).
  { unfold mean. rewrite Hsum, repeat_length. field. apply not_0_INR; auto. }
  unfold variance; rewrite Hmean.
  assert (Z : Rsum (map (fun y => (y - x) ^ 2) (repeat x n)) = 0).
  { clear; induction n as [|n IH]; [reflexivity|]. cbn [repeat map Rsum fold_right].
    fold (Rsum (map (fun y => (y - x) ^ 2) (repeat x n))). rewrite IH; ring. }
  rewrite Z; unfold Rdiv; rewrite Rmult_0_l; lra.
Qed.
Print Assumptions C09_constant_samples_never_stop.

(** One confident evaluator is enough to stop a section although another one still
    reports no confidence. *)
Definition ex_cdf (x : R) : R := if Rlt_dec 0 x then 1 else 1 / 2.
Definition ex_cfgs := [mkSettings 1 (1/2) 2; mkSettings 0 (1/2) 2].
Theorem C09_all_evaluators_confident_refuted :
  exists cdf cfgs samples c arts sts reqs,
    cdf 0 = 1 / 2 /\ (forall x, 0 <= cdf x <= 1) /\
    Forall (fun s => (2 <= r_min s)%nat) cfgs /\
    Forall (fun p => length (snd p) = length cfgs) (samples ++ [(c, arts)]) /\
    collect cdf cfgs (map (fun _ => r_init) cfgs) samples true = (sts, reqs) /\
    snd (collect_sample cdf cfgs sts c arts true) = true /\
    exists e cfg, nth_error cfgs e = Some cfg /\
      ~ stop_rule cdf (r_tol cfg) (r_delta cfg) (r_min cfg)
        (scalars_of c (evaluator_history e (samples ++ [(c, arts)]))).
Proof.
  assert (H0 : ex_cdf 0 = 1 / 2) by (unfold ex_cdf; destruct (Rlt_dec 0 0); lra).
  assert (Hm : Forall (fun s => (2 <= r_min s)%nat) ex_cfgs) by (repeat constructor).
  assert (HL : Forall (fun p : coord * list (option R) => length (snd p) = length ex_cfgs)
      ([([0%nat], [Some 0; Some 0])] ++ [([0%nat], [Some 1; Some 1])])) by (repeat constructor).
  destruct (collect ex_cdf ex_cfgs (map (fun _ => r_init) ex_cfgs) [([0%nat], [Some 0; Some 0])] true)
    as [sts reqs] eqn:E.
  exists ex_cdf, ex_cfgs, [([0%nat], [Some 0; Some 0])], [0%nat], [Some 1; Some 1], sts, reqs.
  split; [auto|]. split; [intros x; unfold ex_cdf; destruct (Rlt_dec 0 x); lra|].
  split; [auto|]. split; [auto|]. split; [auto|]. split.
  - apply (proj2 (C09_section_stops_iff_some_evaluator_is_confident _ _ _ _ _ _ _ Hm HL E)).
    exists 0%nat, (mkSettings 1 (1/2) 2). split; auto. split; [cbn; discriminate|].
    cbn. unfold stop_rule. split; [cbn; auto|].
    assert (V : variance [0; 1] = 1 / 2).
    { unfold variance, mean, Rsum; cbn; field. }
    rewrite V. split; [lra|].
    assert (P : 0 < sqrt (INR 2) * 1 / sqrt (1 / 2)).
    { apply Rdiv_lt_0_compat; [rewrite Rmult_1_r|]; apply sqrt_lt_R0; cbn; lra. }
    cbn [length]. unfold ex_cdf. destruct (Rlt_dec 0 (sqrt (INR 2) * 1 / sqrt (1 / 2))); [lra|contradiction].
  - exists 1%nat, (mkSettings 0 (1/2) 2); split; auto.
    apply C09_zero_tolerance_never_stops; auto. cbn; lra.
Qed.
Print Assumptions C09_all_evaluators_confident_refuted.

(** Invalid settings are rejected; valid ones are kept. *)
Theorem C09_settings_are_validated :
  forall accuracy confidence m,
  make_settings accuracy confidence m =
    if Rlt_dec accuracy 0 then Raise ValueError
    else if Rlt_dec confidence 0 then Raise ValueError
    else if Rlt_dec 1 confidence then Raise ValueError
    else if (m <? 2)%nat then Raise ValueError else Ok (mkSettings accuracy confidence m).
Proof.
  intros; unfold make_settings.
  destruct (Rlt_dec 1 confidence), (Rlt_dec confidence 0), (Rlt_dec accuracy 0); auto.
Qed.
Print Assumptions C09_settings_are_validated.

Example C09_example :
  to_array (fst (add_artifact ex_cdf (mkSettings 0 1 2)
     (fst (add_artifact ex_cdf (mkSettings 0 1 2) r_init [1%nat] (Some 3) false)) [1%nat] (Some 4) false)) [1%nat]
  = Some (7 / 2).
Proof. cbn. unfold put; cbn. f_equal. field. Qed.
Close Scope R_scope.

(** ** C49: collecting the batches computed by concurrent actors *)

(** Whatever the interleaving of actors and collector: a batch is counted at most
    once as long as the final results have not been requested, never more than
    twice, and only batches that were computed are counted. *)
Theorem C49_no_double_counting_while_running :
  forall n w, reach n w ->
  (w_fin w = FNone -> NoDup (w_count w)) /\
  (forall b, count_occ Nat.eq_dec (w_count w) b <= 2)%nat /\
  incl (w_count w) (w_made w).
Proof.
  intros n w H. destruct (reach_count n w H) as (H1 & H2 & H3).
  split; [|split; auto]. intros Hf. apply (NoDup_count_occ Nat.eq_dec). auto.
Qed.
Print Assumptions C49_no_double_counting_while_running.

(** If no actor stashes a batch while its list is being fetched, every computed
    batch is either counted or still waits at its actor or in a fetched, not yet
    processed list. *)
Theorem C49_nothing_is_lost_without_overlap :
  forall n w, reach_atomic n w -> forall b, In b (w_made w) ->
  In b (w_count w) \/
  (exists a, a < n /\ In b (w_res w a)) \/
  (exists f l, In f (map fst (w_map w)) /\ w_run w <> RPop f /\ w_fut w f = Some l /\ In b l).
Proof.
  intros n w H b Hb. exact (ai_keep _ _ (atomic_ainv n w H) b Hb).
Qed.
Print Assumptions C49_nothing_is_lost_without_overlap.

(** Extend an execution by one step whose side conditions are computed. *)
Ltac fwd H c :=
  let H' := fresh in
  match type of H with
  | reach ?n _ => eassert (H' : reach n _)
      by (eapply reach_step; [exact H | eapply c; solve [reflexivity | cbn; auto | cbn; intros ? [<-|[]]; discriminate]])
  | steps ?n _ => eassert (H' : steps n _)
      by (eapply steps_next; [exact H | eapply c; solve [reflexivity | cbn; auto | cbn; intros ? [<-|[]]; discriminate]])
  | reach_atomic ?n _ => eassert (H' : reach_atomic n _)
      by (eapply ra_step; [exact H | eapply c; solve [reflexivity | cbn; auto]
          | cbn; intros ? ?; unfold fset in *;
            repeat match goal with |- context [?a =? 0] => destruct (Nat.eqb_spec a 0); subst end;
            cbn in *; solve [auto | congruence]])
  end;
  clear H; rename H' into H; cbn in H.

(** The final request processes futures the running collector is processing as
    well: a batch enters the results twice. *)
Theorem C49_counted_twice_refuted :
  exists n w b, reach n w /\ w_fin w = FProc [] /\ count_occ Nat.eq_dec (w_count w) b = 2.
Proof.
  pose proof (reach_init 1) as H; unfold w_init in H; cbn in H.
  fwd H SGuard. fwd H (SAppend 0 5). fwd H (SCopy 0 0). fwd H (SClear 0 0 [5]). fwd H (SProcess 0 [5]).
  fwd H SFinish. fwd H (SFinProc 0 [] [5]).
  eexists 1, _, 5; split; [exact H|]. split; reflexivity.
Qed.
Print Assumptions C49_counted_twice_refuted.

(** A batch stashed between copying and clearing an actor's list is lost for good. *)
Theorem C49_lost_batch_refuted :
  exists n w b, reach n w /\ w_fin w = FNone /\ In b (w_made w) /\
    forall w', steps w w' -> ~ In b (w_count w').
Proof.
  pose proof (reach_init 1) as H; unfold w_init in H; cbn in H.
  fwd H (SCopy 0 0). fwd H (SAppend 0 5). fwd H (SClear 0 0 (@nil nat)).
  eexists 1, _, 5; split; [exact H|].
  split; [reflexivity|]. split; [cbn; auto|].
  intros w' Hs. apply (nowhere_forever _ _ _ Hs). unfold nowhere; cbn; unfold fset; cbn.
  repeat split; auto.
  - intros a; destruct (a =? 0); auto.
  - intros a f l; destruct (a =? 0); discriminate.
  - intros f l; destruct (f =? 0); [|discriminate]. intros E; injection E as <-; auto.
Qed.
Print Assumptions C49_lost_batch_refuted.

(** A batch computed before the final request may be missing from its answer, even
    if stashing and fetching never overlap. *)
Theorem C49_late_batch_dropped_refuted :
  exists n w1 w2 b, reach_atomic n w1 /\ w_fin w1 = FNone /\ In b (w_made w1) /\
    steps w1 w2 /\ w_fin w2 = FProc [] /\ w_run w2 = RDone /\ ~ In b (w_count w2).
Proof.
  pose proof (ra_init 1) as H; unfold w_init in H; cbn in H.
  fwd H (SCopy 0 0). fwd H (SClear 0 0 (@nil nat)). fwd H (SAppend 0 5).
  match type of H with reach_atomic _ ?w => pose proof (steps_refl w) as S end.
  fwd S SGuard. fwd S SFinish. fwd S (SFinProc 0 [] []). fwd S (SProcess 0 []).
  fwd S (SPop 0 0 [] []). fwd S SGuard.
  eexists 1, _, _, 5; split; [exact H|].
  split; [reflexivity|]. split; [cbn; auto|]. split; [exact S|].
  split; [reflexivity|]. split; [reflexivity|]. cbn; auto.
Qed.
Print Assumptions C49_late_batch_dropped_refuted.
