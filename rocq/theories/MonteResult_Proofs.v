From Coq Require Import List Arith Bool Reals Lia Lra.
From Verif Require Import Base BaseLemmas Monte_Model Monte_Proofs MonteResult_Model MonteResult_Spec.
Import ListNotations.
Open Scope R_scope.

Lemma Rsum_app a b : Rsum (a ++ b) = Rsum a + Rsum b.
Proof. unfold Rsum; induction a; cbn; [lra|rewrite IHa; lra]. Qed.

Lemma scalars_of_app c a b : scalars_of c (a ++ b) = scalars_of c a ++ scalars_of c b.
Proof.
  induction a as [|[d [x|]] a IH]; cbn; auto.
  destruct (coord_eqb d c); cbn; rewrite IH; auto.
Qed.

(** The arrays hold the sums over the history. *)
Definition tracks (hist : list (coord * option R)) (st : rstate) : Prop :=
  forall c, r_sum st c = Rsum (scalars_of c hist) /\
            r_sq st c = Rsum (map (fun x => x ^ 2) (scalars_of c hist)) /\
            r_cnt st c = length (scalars_of c hist).

Lemma tracks_init : tracks [] r_init.
Proof. intros c; cbn; auto. Qed.

Lemma var_identity_gen l m :
  Rsum (map (fun x => (x - m) ^ 2) l) =
  Rsum (map (fun x => x ^ 2) l) - 2 * m * Rsum l + INR (length l) * m ^ 2.
Proof.
  induction l as [|x l IH]; [cbn; lra|].
  cbn [map Rsum fold_right length]. fold (Rsum (map (fun x => (x - m) ^ 2) l)).
  fold (Rsum (map (fun x => x ^ 2) l)). fold (Rsum l). rewrite IH, S_INR. ring.
Qed.
Lemma var_identity l : l <> [] ->
  Rsum (map (fun x => (x - mean l) ^ 2) l) = Rsum (map (fun x => x ^ 2) l) - Rsum l ^ 2 / INR (length l).
Proof.
  intros H. rewrite var_identity_gen. unfold mean.
  assert (INR (length l) <> 0) by (apply not_0_INR; destruct l; [congruence|discriminate]).
  field; auto.
Qed.

Section P.
  Variable cdf : R -> R.

  Lemma add_artifact_tracks cfg hist st c s compute :
    tracks hist st -> tracks (hist ++ [(c, s)]) (fst (add_artifact cdf cfg st c s compute)).
  Proof.
    intros H x. rewrite scalars_of_app.
    destruct s as [v|]; cbn [add_artifact scalars_of]; [|cbn [fst]; rewrite app_nil_r; auto].
    assert (E : fst (add_artifact cdf cfg st c (Some v) compute) =
         mkR (put (r_sum st) c (r_sum st c + v))
         (put (r_sq st) c (r_sq st c + v ^ 2)) (put (r_cnt st) c (S (r_cnt st c)))).
    { unfold add_artifact. destruct (compute && _); auto. destruct (Rlt_dec 0 _); auto. }
    unfold add_artifact in E; rewrite E; clear E; cbn [r_sum r_sq r_cnt]; unfold put.
    destruct (H c) as (H1 & H2 & H3), (H x) as (G1 & G2 & G3).
    destruct (coord_eqb_spec x c) as [->|Hne].
    - rewrite coord_eqb_refl. rewrite map_app, !Rsum_app, app_length, H1, H2, H3; cbn.
      repeat split; try lra; lia.
    - destruct (coord_eqb_spec c x); [congruence|]. rewrite app_nil_r; auto.
  Qed.

  Lemma add_artifact_confident cfg hist st c s compute :
    (2 <= r_min cfg)%nat -> tracks hist st ->
    snd (add_artifact cdf cfg st c s compute) = true <->
    compute = true /\ s <> None /\
    stop_rule cdf (r_tol cfg) (r_delta cfg) (r_min cfg) (scalars_of c (hist ++ [(c, s)])).
  Proof.
    intros Hmin Ht. destruct s as [v|]; [|cbn; split; [discriminate|intros (_ & H & _); congruence]].
    set (l := scalars_of c (hist ++ [(c, Some v)])).
    assert (Hl : l = scalars_of c hist ++ [v]).
    { unfold l; rewrite scalars_of_app; cbn; rewrite coord_eqb_refl; auto. }
    destruct (Ht c) as (H1 & H2 & H3).
    assert (E1 : r_sum st c + v = Rsum l) by (rewrite Hl, Rsum_app, H1; cbn; lra).
    assert (E2 : r_sq st c + v ^ 2 = Rsum (map (fun x => x ^ 2) l))
      by (rewrite Hl, map_app, Rsum_app, H2; cbn; lra).
    assert (E3 : S (r_cnt st c) = length l) by (rewrite Hl, app_length, H3; cbn; lia).
    assert (Hne : l <> []) by (rewrite Hl; destruct (scalars_of c hist); discriminate).
    unfold add_artifact; rewrite E1, E2, E3, <- var_identity by auto.
    fold (variance l). unfold stop_rule.
    assert (Hlen0 : length l <> 0%nat) by lia.
    destruct compute; cbn [andb]; [|cbn; split; [discriminate|intros [H _]; discriminate]].
    destruct (Nat.eqb_spec (length l mod r_min cfg) 0) as [Hm|Hm].
    - assert (Hsq : 0 < sqrt (variance l) <-> 0 < variance l).
      { split; intros H; [|now apply sqrt_lt_R0].
        destruct (Rle_or_lt (variance l) 0) as [Hle|]; auto. rewrite sqrt_neg_0 in H by auto; lra. }
      destruct (Rlt_dec 0 (sqrt (variance l))) as [Hs|Hs]; cbn [snd].
      + destruct (Rlt_dec _ (r_delta cfg)) as [Hd|Hd]; split; try discriminate; auto.
        * intros _; repeat split; auto; [discriminate|tauto].
        * intros (_ & _ & _ & _ & X); lra.
      + split; [discriminate|]. intros (_ & _ & _ & X & _); tauto.
    - cbn [snd]; split; [discriminate|]. intros (_ & _ & (_ & X) & _); congruence.
  Qed.

  (** ** Histories over several evaluators *)
  Lemma collect_sample_spec c compute : forall cfgs sts arts hists,
    length sts = length cfgs -> length arts = length cfgs -> length hists = length cfgs ->
    Forall (fun s => (2 <= r_min s)%nat) cfgs ->
    (forall e st h, nth_error sts e = Some st -> nth_error hists e = Some h -> tracks h st) ->
    let '(sts', req) := collect_sample cdf cfgs sts c arts compute in
    length sts' = length cfgs /\
    (forall e st h, nth_error sts' e = Some st -> nth_error hists e = Some h ->
                    tracks (h ++ [(c, nth e arts None)]) st) /\
    (req = true <-> compute = true /\ exists e cfg h, nth_error cfgs e = Some cfg /\ nth_error hists e = Some h /\
        nth e arts None <> None /\
        stop_rule cdf (r_tol cfg) (r_delta cfg) (r_min cfg) (scalars_of c (h ++ [(c, nth e arts None)]))).
  Proof.
    induction cfgs as [|cfg cfgs IH]; intros [|st sts] [|a arts] [|h hists] L1 L2 L3 Hm Ht;
      cbn [length] in *; try discriminate.
    - cbn. split; auto; split; [intros [|e]; discriminate|].
      split; [discriminate|intros (_ & [|e] & ? & ? & H & _); discriminate].
    - apply Forall_cons_iff in Hm as [Hm1 Hm2].
      pose proof (Ht 0%nat st h eq_refl eq_refl) as Ht0.
      specialize (IH sts arts hists ltac:(lia) ltac:(lia) ltac:(lia) Hm2).
      specialize (IH ltac:(intros e s h' He Hh; apply (Ht (S e)); auto)).
      cbn [collect_sample].
      pose proof (add_artifact_tracks cfg h st c a compute Ht0) as T.
      pose proof (add_artifact_confident cfg h st c a compute Hm1 Ht0) as C.
      destruct (add_artifact cdf cfg st c a compute) as [st1 conf]; cbn [fst snd] in T, C.
      destruct (collect_sample cdf cfgs sts c arts compute) as [rest req].
      destruct IH as (I1 & I2 & I3). cbn [length]. split; [lia|]. split.
      + intros [|e] s h' He Hh; cbn in *; [injection He as <-; injection Hh as <-; auto|eauto].
      + rewrite orb_true_iff, andb_true_iff, I3, C. split.
        * intros [[_ (Hc & Hn & Hr)]|(Hc & e & cfg' & h' & He)]; split; auto.
          -- exists 0%nat, cfg, h; auto.
          -- exists (S e), cfg', h'; auto.
        * intros (Hc & [|e] & cfg' & h' & He & Hh & Hr); cbn in *.
          -- left; injection He as <-; injection Hh as <-; tauto.
          -- right; split; auto; exists e, cfg', h'; auto.
  Qed.

  Lemma collect_spec cfgs compute : Forall (fun s => (2 <= r_min s)%nat) cfgs ->
    forall samples sts hist,
    length sts = length cfgs -> Forall (fun p => length (snd p) = length cfgs) samples ->
    (forall e st, nth_error sts e = Some st -> tracks (evaluator_history e hist) st) ->
    let '(sts', reqs) := collect cdf cfgs sts samples compute in
    length sts' = length cfgs /\
    (forall e st, nth_error sts' e = Some st -> tracks (evaluator_history e (hist ++ samples)) st).
  Proof.
    intros Hm; induction samples as [|[c arts] samples IH]; intros sts hist L1 L2 Ht; cbn [collect].
    - rewrite app_nil_r; auto.
    - apply Forall_cons_iff in L2 as [La L2]; cbn [snd] in La.
      pose proof (collect_sample_spec c compute cfgs sts arts
                    (map (fun e => evaluator_history e hist) (seq 0 (length cfgs)))) as S1.
      rewrite map_length, seq_length in S1. specialize (S1 L1 La eq_refl Hm).
      destruct (collect_sample cdf cfgs sts c arts compute) as [sts1 req].
      destruct S1 as (A1 & A2 & _).
      { intros e st h He Hh. rewrite nth_error_map in Hh.
        destruct (nth_error (seq 0 (length cfgs)) e) as [k|] eqn:Hk; [|discriminate].
        assert (He' : (e < length cfgs)%nat).
        { rewrite <- (seq_length (length cfgs) 0). apply nth_error_Some; congruence. }
        rewrite (nth_error_nth' _ 0%nat), seq_nth in Hk by (rewrite ?seq_length; auto).
        injection Hk as <-.
        injection Hh as <-; auto. }
      specialize (IH sts1 (hist ++ [(c, arts)]) A1 L2).
      destruct (collect cdf cfgs sts1 samples compute) as [sts2 reqs].
      rewrite <- app_assoc in IH; apply IH.
      intros e st He. unfold evaluator_history; rewrite map_app.
      apply (A2 e st (evaluator_history e hist)); auto.
      rewrite nth_error_map. rewrite (nth_error_nth' _ 0%nat).
      + rewrite seq_nth; auto. rewrite <- A1; apply nth_error_Some; congruence.
      + rewrite seq_length, <- A1; apply nth_error_Some; congruence.
  Qed.
End P.
