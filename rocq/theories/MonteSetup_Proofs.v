(** Progress reports and simulation set-up. *)
From Coq Require Import List Arith Bool Lia Permutation.
From Verif Require Import Base BaseLemmas Monte_Model Monte_Spec Monte_Proofs.
Import ListNotations.

Lemma existsb_disabled ev c :
  existsb (fun e => match e with Disabled x => coord_eqb x c | Emit _ => false end) ev = true <-> In (Disabled c) ev.
Proof.
  rewrite existsb_exists; split.
  - intros ([x|x] & Hin & H); [discriminate|]. apply coord_eqb_eq in H as ->; auto.
  - intros H; exists (Disabled c); split; auto; apply coord_eqb_refl.
Qed.

Lemma list_sum_perm l1 l2 : Permutation l1 l2 -> list_sum l1 = list_sum l2.
Proof. unfold list_sum; induction 1; cbn; lia. Qed.

Lemma list_sum_const {X} (l : list X) g N : (forall x, In x l -> g x = N) -> list_sum (map g l) = length l * N.
Proof.
  unfold list_sum; induction l as [|x l IH]; cbn; intros H; [reflexivity|].
  rewrite IH, (H x) by auto; lia.
Qed.

Lemma credit_sum dims N ev q : qinv dims N ev q ->
  list_sum (map (credit N ev) (ndindex dims)) =
  list_sum (map (q_count q) (q_active q)) + (length (ndindex dims) - length (q_active q)) * N.
Proof.
  intros Hq.
  set (rest := filter (fun c => negb (existsb (coord_eqb c) (q_active q))) (ndindex dims)).
  assert (Hrest : forall c, In c rest <-> in_grid dims c /\ ~ In c (q_active q)).
  { intros c; unfold rest; rewrite filter_In, ndindex_spec, negb_true_iff.
    rewrite <- not_true_iff_false, existsb_exists; split; intros [H1 H2]; split; auto.
    - intros H; apply H2; exists c; split; auto; apply coord_eqb_refl.
    - intros (x & Hx & He); apply coord_eqb_eq in He as ->; auto. }
  assert (HP : Permutation (ndindex dims) (q_active q ++ rest)).
  { apply NoDup_Permutation; [apply NoDup_ndindex| |].
    - pose proof (qi_nodup _ _ _ _ Hq) as Hnd.
      assert (Hnr : NoDup rest) by (apply NoDup_filter, NoDup_ndindex).
      assert (Hdis : forall c, In c (q_active q) -> ~ In c rest) by (intros c Hc Hr; apply Hrest in Hr; tauto).
      clear - Hnd Hnr Hdis; clearbody rest.
      revert Hdis; induction Hnd as [|x l Hx Hl IH]; intros Hdis; cbn; auto.
      constructor; [rewrite in_app_iff; intros [H|H]; [auto|apply (Hdis x); [now left|auto]]|].
      apply IH; intros c Hc; apply Hdis; now right.
    - intros c; rewrite in_app_iff, Hrest, ndindex_spec; split.
      + intros H. destruct (in_dec (list_eq_dec Nat.eq_dec) c (q_active q)); auto.
      + intros [H|[H _]]; auto. apply (qi_grid _ _ _ _ Hq); auto. }
  rewrite (list_sum_perm _ _ (Permutation_map (credit N ev) HP)), map_app, list_sum_app.
  rewrite (Permutation_length HP), app_length.
  replace (length (q_active q) + length rest - length (q_active q)) with (length rest) by lia.
  f_equal.
  - f_equal; apply map_ext_in; intros c Hc. unfold credit.
    destruct (existsb _ ev) eqn:He.
    + apply existsb_disabled in He. now apply (qi_active _ _ _ _ Hq) in Hc as [_ Hc].
    + symmetry; apply (qi_count _ _ _ _ Hq).
  - apply list_sum_const; intros c Hc; apply Hrest in Hc as [H1 H2]. unfold credit.
    destruct (existsb _ ev) eqn:He; auto.
    destruct (qi_done _ _ _ _ Hq c H1 H2) as [H|H]; auto.
    apply existsb_disabled in H; congruence.
Qed.

Lemma concat_singletons n (q : queue) (l : list coord) :
  (forall c, In c l -> in_grid [n] c) ->
  map (sub_sum q []) (concat l) = map (q_count q) l /\
  forallb (forallb (fun k => k <? n)) l = true.
Proof.
  induction l as [|c l IH]; intros H; [auto|].
  destruct IH as [I1 I2]; [intros x Hx; apply H; now right|].
  pose proof (H c (or_introl eq_refl)) as Hc; unfold in_grid in Hc.
  inversion Hc as [|k m c' t Hk Ht]; subst; inversion Ht; subst.
  cbn [concat app map forallb]; rewrite I1, I2.
  split; [f_equal; unfold sub_sum; cbn; lia|].
  apply Nat.ltb_lt in Hk; rewrite Hk; auto.
Qed.

Lemma progress_1d n N bs ops q ev :
  1 <= n -> 1 <= N -> q_run (queue_new [n] N bs) ops = (q, ev) ->
  exists num den, query_progress [n] q = Ok (num, den) /\ 0 < den /\
    num * (n * N) = list_sum (map (credit N ev) (ndindex [n])) * den /\
    (num < den <-> exists c, In c (q_active q)).
Proof.
  intros Hn HN Hr. destruct (qinv_run _ _ _ _ _ _ _ (qinv_new [n] N bs HN) Hr) as [Hq _]; cbn [app] in Hq.
  pose proof (credit_sum _ _ _ _ Hq) as Hcs.
  assert (Hlen : length (ndindex [n]) = n) by (rewrite length_ndindex; cbn; lia).
  assert (Hs : q_samples q = N) by apply (qi_samples _ _ _ _ Hq).
  unfold query_progress. destruct (q_active q) as [|c l] eqn:Hact.
  - exists 1, 1; cbn [map list_sum fold_right length] in Hcs; rewrite Hlen in *.
    repeat split; try lia. intros [c []].
  - destruct (concat_singletons n q (c :: l)) as [C1 C2].
    { rewrite <- Hact; apply (qi_grid _ _ _ _ Hq). }
    rewrite C2, C1, Hlen, Hs. rewrite Hlen in Hcs.
    eexists _, _; split; [reflexivity|]; split; [nia|]; split; [rewrite Hcs; lia|].
    split; [exists c; now left|]. intros _.
    rewrite Nat.add_comm, <- Hcs.
    pose proof (qi_active _ _ _ _ Hq c) as Ha; rewrite Hact in Ha; specialize (Ha (or_introl eq_refl)).
    assert (Hb : forall x, credit N ev x <= N).
    { intros x; unfold credit; destruct (existsb _ ev); auto; apply (qi_le _ _ _ _ Hq). }
    destruct (Nat.lt_ge_cases (list_sum (map (credit N ev) (ndindex [n]))) (n * N)) as [|Hge]; auto.
    exfalso. pose proof (list_sum_reach (credit N ev) N (ndindex [n]) Hb ltac:(rewrite Hlen; lia) c) as X.
    assert (Hin : In c (ndindex [n])).
    { apply ndindex_spec, (qi_grid _ _ _ _ Hq); rewrite Hact; now left. }
    specialize (X Hin). unfold credit in X. destruct (existsb _ ev) eqn:He; [|lia].
    apply existsb_disabled in He; tauto.
Qed.

(** ** Sorting the dimensions *)
Lemma insert_dim_last stages d l :
  Forall (fun x => sort_key stages x <= sort_key stages d) l -> insert_dim stages d l = l ++ [d].
Proof.
  induction l as [|x l IH]; intros H; [reflexivity|].
  apply Forall_cons_iff in H as [H1 H2]. cbn [insert_dim].
  destruct (Nat.ltb_spec (sort_key stages d) (sort_key stages x)); [lia|]. cbn; f_equal; auto.
Qed.

Lemma sort_dims_sorted stages dims : key_sorted stages dims -> sort_dims stages dims = dims.
Proof.
  intros H. unfold sort_dims.
  assert (G : forall l acc, key_sorted stages l ->
    (forall a d, In a acc -> In d l -> sort_key stages a <= sort_key stages d) ->
    fold_left (fun acc d => insert_dim stages d acc) l acc = acc ++ l).
  { induction l as [|d l IH]; intros acc Hs Ha; cbn [fold_left]; [now rewrite app_nil_r|].
    destruct Hs as [Hd Hs]. rewrite insert_dim_last.
    - rewrite IH; auto; [rewrite <- app_assoc; auto|].
      intros a e Hin He; apply in_app_iff in Hin as [Hin|[<-|[]]].
      + apply Ha; auto; now right.
      + rewrite Forall_forall in Hd; auto.
    - apply Forall_forall; intros a Hin; apply Ha; auto; now left. }
  apply (G dims []); auto; intros a d [].
Qed.

Lemma configured_point_nth grid c j d :
  NoDup (map d_id grid) -> length c = length grid -> nth_error grid j = Some d ->
  configured_point grid c (d_id d) = nth_error c j.
Proof.
  unfold configured_point; revert c j; induction grid as [|g grid IH]; intros [|x c] j Hnd Hl Hj;
    cbn in *; try (destruct j; discriminate); try lia.
  apply NoDup_cons_iff in Hnd as [Hn Hnd].
  destruct j as [|j]; cbn in Hj.
  - injection Hj as ->; rewrite Nat.eqb_refl; auto.
  - destruct (Nat.eqb_spec (d_id g) (d_id d)) as [E|_].
    + exfalso; apply Hn; rewrite E; apply in_map; eapply nth_error_In; eauto.
    + cbn; apply IH; auto.
Qed.

Lemma insert_dim_perm stages d l : Permutation (insert_dim stages d l) (d :: l).
Proof.
  induction l as [|x l IH]; cbn [insert_dim]; auto.
  destruct (sort_key stages d <? sort_key stages x); auto.
  eapply Permutation_trans; [apply perm_skip, IH|apply perm_swap].
Qed.
Lemma sort_dims_perm stages dims : Permutation (sort_dims stages dims) dims.
Proof.
  unfold sort_dims.
  assert (G : forall l acc, Permutation (fold_left (fun acc d => insert_dim stages d acc) l acc) (acc ++ l)).
  { induction l as [|d l IH]; intros acc; cbn [fold_left]; [now rewrite app_nil_r|].
    eapply Permutation_trans; [apply IH|].
    eapply Permutation_trans; [apply Permutation_app_tail, insert_dim_perm|].
    cbn. apply Permutation_middle. }
  apply (G dims []).
Qed.
