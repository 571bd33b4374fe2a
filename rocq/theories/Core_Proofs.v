(** Proofs about hooks and random nodes. *)
From Coq Require Import List Arith Bool ZArith Lia Permutation.
From Verif Require Import Base BaseLemmas Core_Model Core_Spec.
Import ListNotations.

(** * Hooks *)
Definition run_hops (ops : list hop) : hstate := fold_left apply_hop ops hs_empty.

Lemma mem_In x l : mem x l = true <-> In x l.
Proof.
  unfold mem. rewrite existsb_exists. split.
  - intros (y & H & E). apply Nat.eqb_eq in E; now subst.
  - intros H; exists x; split; auto. apply Nat.eqb_refl.
Qed.

Lemma run_hops_snoc ops o : run_hops (ops ++ [o]) = apply_hop (run_hops ops) o.
Proof. unfold run_hops. now rewrite fold_left_app. Qed.

Lemma created_app a b : created (a ++ b) = created a ++ created b.
Proof. induction a as [|o a IH]; [reflexivity|]. destruct o; cbn; rewrite ?IH; auto. Qed.

Lemma hooks_created ops : map hk_owner (hs_hooks (run_hops ops)) = created ops.
Proof.
  induction ops as [|o ops IH] using rev_ind; [reflexivity|].
  rewrite run_hops_snoc, created_app, <- IH.
  set (s := run_hops ops). destruct o as [hb cb|hb h|hb h|h]; cbn [apply_hop created].
  - unfold add_callback, add_hook; cbn. now rewrite map_app.
  - destruct (h <? length (hs_hooks s)); cbn; now rewrite app_nil_r.
  - cbn; now rewrite app_nil_r.
  - destruct (nth_error (hs_hooks s) h); cbn; now rewrite app_nil_r.
Qed.

Lemma owner_nth ops h k : nth_error (hs_hooks (run_hops ops)) h = Some k ->
  nth_error (created ops) h = Some (hk_owner k).
Proof. intros H. rewrite <- hooks_created, nth_error_map', H. reflexivity. Qed.
Lemma owner_nth_none ops h : nth_error (hs_hooks (run_hops ops)) h = None -> nth_error (created ops) h = None.
Proof. intros H. rewrite <- hooks_created, nth_error_map', H. reflexivity. Qed.
Lemma length_created ops : length (created ops) = length (hs_hooks (run_hops ops)).
Proof. now rewrite <- hooks_created, map_length. Qed.

(** The effect of one operation on membership. *)
Lemma hop_member ops o hb h :
  In h (hs_sets (run_hops (ops ++ [o])) hb) <->
  registers ops o hb h \/ (In h (hs_sets (run_hops ops) hb) /\ ~ unregisters ops o hb h).
Proof.
  rewrite run_hops_snoc. set (s := run_hops ops).
  assert (Hlen : length (created ops) = length (hs_hooks s)) by apply length_created.
  assert (Hadd : forall s' hb' h', In h (hs_sets (add_hook s' hb' h') hb) <->
            (hb' = hb /\ h' = h) \/ In h (hs_sets s' hb)).
  { intros s' hb' h'. unfold add_hook, set_update; cbn [hs_sets].
    destruct (Nat.eqb_spec hb hb') as [->|Hne].
    - destruct (mem h' (hs_sets s' hb')) eqn:E.
      + apply mem_In in E. intuition (subst; auto).
      + rewrite in_app_iff; cbn. intuition (subst; auto).
    - intuition congruence. }
  assert (Hrem : forall hb' h', In h (hs_sets (remove_hook s hb' h') hb) <->
            In h (hs_sets s hb) /\ ~ (hb' = hb /\ h' = h)).
  { intros hb' h'. unfold remove_hook, set_update; cbn [hs_sets].
    destruct (Nat.eqb_spec hb hb') as [->|Hne].
    - rewrite filter_In. destruct (Nat.eqb_spec h h'); cbn; intuition congruence.
    - intuition congruence. }
  destruct o as [hb' cb|hb' h'|hb' h'|h']; cbn [apply_hop registers unregisters].
  - unfold add_callback. rewrite Hadd; cbn [hs_sets]. rewrite Hlen. intuition congruence.
  - destruct (Nat.ltb_spec h' (length (hs_hooks s))).
    + rewrite Hadd. rewrite Hlen. intuition (subst; auto; lia).
    + rewrite Hlen. intuition (subst; lia).
  - rewrite Hrem. tauto.
  - destruct (nth_error (hs_hooks s) h') as [k|] eqn:E.
    + rewrite Hrem. apply owner_nth in E.
      split; [intros [H1 H2]; right; split; auto; intros [-> H3]; apply H2; split; congruence|].
      intros [[]|[H1 H2]]; split; auto. intros [H3 ->]; apply H2; split; congruence.
    + apply owner_nth_none in E. split; [intros H; right; split; auto; intros [-> H3]; congruence|tauto].
Qed.

Lemma registers_not_unregisters ops o hb h : registers ops o hb h -> ~ unregisters ops o hb h.
Proof. destruct o; cbn; tauto. Qed.

Lemma sets_registered ops hb h : In h (hs_sets (run_hops ops) hb) <-> registered ops hb h.
Proof.
  induction ops as [|o ops IH] using rev_ind.
  - cbn. split; [tauto|]. intros (b & o & a & E & _). destruct b; discriminate.
  - rewrite hop_member, IH. split.
    + intros [H|[(b & o' & a & -> & H1 & H2) H3]].
      * exists ops, o, []. split; [reflexivity|]. split; [auto|].
        intros mid o' rest E. destruct mid; discriminate.
      * exists b, o', (a ++ [o]). split; [now rewrite <- app_assoc|]. split; [auto|].
        intros mid o'' rest E. destruct (exists_last (l := o'' :: rest)) as (r' & z & Er); [discriminate|].
        rewrite Er, app_assoc in E. apply app_inj_tail in E as [E ->].
        destruct r' as [|y r'].
        -- cbn in Er. injection Er as -> ->. rewrite app_nil_r in E; subst mid. exact H3.
        -- cbn in Er. injection Er as <- ->. eapply H2; eauto.
    + intros (b & o' & a & E & H1 & H2). destruct (exists_last (l := o' :: a)) as (r' & z & Er); [discriminate|].
      rewrite Er, app_assoc in E. apply app_inj_tail in E as [-> ->].
      destruct r' as [|y r'].
      * cbn in Er. injection Er as -> ->. rewrite app_nil_r. auto.
      * cbn in Er. injection Er as <- ->. right. split.
        -- exists b, o', r'. split; [reflexivity|]. split; [auto|].
           intros mid o'' rest ->. apply (H2 mid o'' (rest ++ [z])). now rewrite <- app_assoc.
        -- apply (H2 r' z []). reflexivity.
Qed.

Lemma sets_NoDup ops hb : NoDup (hs_sets (run_hops ops) hb).
Proof.
  revert hb. induction ops as [|o ops IH] using rev_ind; intros hb; [constructor|].
  rewrite run_hops_snoc. set (s := run_hops ops) in *.
  assert (Hadd : forall s' hb' h', (forall x, NoDup (hs_sets s' x)) -> NoDup (hs_sets (add_hook s' hb' h') hb)).
  { intros s' hb' h' Hs. unfold add_hook, set_update; cbn [hs_sets].
    destruct (Nat.eqb_spec hb hb') as [->|]; [|auto].
    destruct (mem h' (hs_sets s' hb')) eqn:E; [auto|].
    apply (Permutation_NoDup (l := h' :: hs_sets s' hb')); [apply Permutation_cons_append|].
    constructor; auto. intros Hi. apply mem_In in Hi. congruence. }
  assert (Hrem : forall hb' h', NoDup (hs_sets (remove_hook s hb' h') hb)).
  { intros hb' h'. unfold remove_hook, set_update; cbn [hs_sets].
    destruct (hb =? hb'); [apply NoDup_filter|]; auto. }
  destruct o as [hb' cb|hb' h'|hb' h'|h']; cbn [apply_hop].
  - apply Hadd; cbn; auto.
  - destruct (h' <? length (hs_hooks s)); auto.
  - auto.
  - destruct (nth_error (hs_hooks s) h'); auto.
Qed.

(** Notification. *)
Section Notify.
  Variables (V : Type) (react : nat -> V -> option hop) (order : list nat -> list nat).
  Hypothesis order_perm : forall l, Permutation (order l) l.

  Lemma notify_quiet hb todo v s :
    (forall h k, In h todo -> nth_error (hs_hooks s) h = Some k -> react (hk_callback k) v = None) ->
    (forall h, In h todo -> nth_error (hs_hooks s) h <> None) ->
    notify_loop V react (length (hs_sets s hb)) hb todo v s = (s, todo, None).
  Proof.
    induction todo as [|h t IH]; intros Hq Hh; cbn [notify_loop]; rewrite Nat.eqb_refl; [reflexivity|].
    destruct (nth_error (hs_hooks s) h) as [k|] eqn:E; [|now elim (Hh h (or_introl eq_refl))].
    rewrite (Hq h k (or_introl eq_refl) E).
    rewrite IH; auto; intros; [eapply Hq|apply Hh]; eauto; right; auto.
  Qed.

  Lemma notify_abort hb pre h post v s k o :
    (forall h' k', In h' pre -> nth_error (hs_hooks s) h' = Some k' -> react (hk_callback k') v = None) ->
    (forall h', In h' pre -> nth_error (hs_hooks s) h' <> None) ->
    nth_error (hs_hooks s) h = Some k -> react (hk_callback k) v = Some o ->
    length (hs_sets (apply_hop s o) hb) <> length (hs_sets s hb) ->
    notify_loop V react (length (hs_sets s hb)) hb (pre ++ h :: post) v s =
      (apply_hop s o, pre ++ [h], Some RuntimeError).
  Proof.
    induction pre as [|p t IH]; intros Hq Hh Hk Ho Hl; cbn [notify_loop app]; rewrite Nat.eqb_refl.
    - rewrite Hk, Ho. assert (Hb : (length (hs_sets (apply_hop s o) hb) =? length (hs_sets s hb)) = false)
        by (now apply Nat.eqb_neq).
      destruct post; cbn [notify_loop]; rewrite Hb; reflexivity.
    - destruct (nth_error (hs_hooks s) p) as [kp|] eqn:E; [|now elim (Hh p (or_introl eq_refl))].
      rewrite (Hq p kp (or_introl eq_refl) E).
      rewrite IH; auto; intros; [eapply Hq|apply Hh]; eauto; right; auto.
  Qed.
End Notify.

Lemma registered_exists ops hb h : registered ops hb h -> h < length (created ops).
Proof.
  intros (b & o & a & -> & H & _). rewrite created_app, app_length.
  destruct o; cbn in *; try tauto; lia.
Qed.

(** * Random nodes *)
Section Random.
  Variable V : Type.
  Variable stream : source -> nat -> V.
  Notation step := (rstep V stream).
  Notation run := (rrun V stream).

  Lemma nth_replace l i x j : i < length l ->
    nth_error (replace_node l i x) j = if j =? i then Some x else nth_error l j.
  Proof.
    intros H. unfold replace_node.
    destruct (Nat.eqb_spec j i) as [->|Hne].
    - rewrite nth_error_app2; rewrite firstn_length_le by lia; [|lia]. now rewrite Nat.sub_diag.
    - destruct (Nat.lt_ge_cases j i).
      + rewrite nth_error_app1 by (rewrite firstn_length_le; lia). now rewrite nth_error_firstn; destruct (Nat.ltb_spec j i); [|lia].
      + rewrite nth_error_app2; rewrite firstn_length_le by lia; [|lia].
        destruct (j - i) as [|d] eqn:E; [lia|]. cbn [nth_error]. rewrite nth_error_skipn. f_equal; lia.
  Qed.
  Lemma length_replace l i x : i < length l -> length (replace_node l i x) = length l.
  Proof. intros H. unfold replace_node. rewrite app_length. cbn [length]. rewrite firstn_length, skipn_length. lia. Qed.

  (** Relational view of the resolution. *)
  Inductive rooted (s : rstate_) : nat -> nat -> Prop :=
    | rt_self x nd : nth_error (rs_nodes s) x = Some nd -> rn_gen nd <> None -> rooted s x x
    | rt_step x m r nd : nth_error (rs_nodes s) x = Some nd -> rn_gen nd = None ->
        rn_mother nd = Some m -> rooted s m r -> rooted s x r.

  Lemma rng_root_rooted fuel s x r : rng_root fuel s x = Ok r -> rooted s x r.
  Proof.
    revert x; induction fuel as [|k IH]; intros x; cbn [rng_root]; [discriminate|].
    destruct (nth_error (rs_nodes s) x) as [nd|] eqn:E; [|discriminate].
    destruct (rn_gen nd) eqn:G.
    - intros H; injection H as <-. eapply rt_self; eauto; congruence.
    - destruct (rn_mother nd) eqn:M; [|discriminate]. intros H. eapply rt_step; eauto.
  Qed.

  Lemma rooted_fun s x r1 : rooted s x r1 -> forall r2, rooted s x r2 -> r1 = r2.
  Proof.
    induction 1; intros r2 H'; destruct H'; try congruence.
    apply IHrooted. congruence.
  Qed.

  (** The chain to the root, without repetitions. *)
  Inductive path (s : rstate_) : nat -> list nat -> nat -> Prop :=
    | p_self x nd : nth_error (rs_nodes s) x = Some nd -> rn_gen nd <> None -> path s x [x] x
    | p_step x m r nd l : nth_error (rs_nodes s) x = Some nd -> rn_gen nd = None ->
        rn_mother nd = Some m -> path s m l r -> path s x (x :: l) r.
  Lemma rooted_path s x r : rooted s x r -> exists l, path s x l r.
  Proof. induction 1 as [|x m r nd H1 H2 H3 H4 [l IH]]; eexists; [eapply p_self|eapply p_step]; eauto. Qed.
  Lemma path_suffix s x l r : path s x l r -> forall y, In y l -> exists l', path s y l' r /\ length l' <= length l.
  Proof.
    induction 1; intros y Hy.
    - destruct Hy as [<-|[]]. eexists; split; [eapply p_self; eauto|]. cbn; lia.
    - destruct Hy as [<-|Hy]; [eexists; split; [eapply p_step; eauto|]; cbn; lia|].
      destruct (IHpath y Hy) as (l' & H' & Hl). exists l'; split; auto. cbn; lia.
  Qed.
  Lemma path_fun s x l1 r1 : path s x l1 r1 -> forall l2 r2, path s x l2 r2 -> l1 = l2.
  Proof.
    induction 1; intros l2 r2 H'; destruct H'; try congruence.
    f_equal. eapply IHpath. replace m with m0 by congruence. eauto.
  Qed.
  Lemma path_NoDup s x l r : path s x l r -> NoDup l.
  Proof.
    induction 1; constructor; auto; [constructor|].
    intros Hi. destruct (path_suffix s m l r H2 x Hi) as (l' & P & Hl).
    assert (path s x (x :: l) r) by (eapply p_step; eauto).
    rewrite (path_fun s x _ _ P _ _ H3) in Hl. cbn in Hl; lia.
  Qed.
  Lemma path_In s x l r : path s x l r -> forall y, In y l -> y < length (rs_nodes s).
  Proof.
    induction 1; intros y Hy.
    - destruct Hy as [<-|[]]. apply nth_error_Some; congruence.
    - destruct Hy as [<-|Hy]; auto. apply nth_error_Some; congruence.
  Qed.
  Lemma path_root s x l r : path s x l r -> forall fuel, length l <= fuel -> rng_root fuel s x = Ok r.
  Proof.
    induction 1; intros [|k] Hf; cbn [length] in Hf; try lia; cbn [rng_root]; rewrite H.
    - destruct (rn_gen nd); congruence.
    - rewrite H0, H1. apply IHpath; lia.
  Qed.
  Lemma root_of_rooted s x r : root_of s x = Ok r <-> rooted s x r.
  Proof.
    split; [apply rng_root_rooted|]. intros H. destruct (rooted_path s x r H) as [l P].
    unfold root_of. eapply path_root; eauto.
    enough (length l <= length (rs_nodes s)) by lia.
    rewrite <- (seq_length (length (rs_nodes s)) 0). apply NoDup_incl_length; [eapply path_NoDup; eauto|].
    intros y Hy. apply in_seq. pose proof (path_In s x l r P y Hy); lia.
  Qed.

  (** A draw returns the next values of the root's generator. *)
  Lemma draw_rooted s n r c nd src pos : rooted s n r -> nth_error (rs_nodes s) r = Some nd ->
    rn_gen nd = Some (src, pos) ->
    draw V stream s n c =
      (mkRS (replace_node (rs_nodes s) r (mkRN (rn_mother nd) (Some (src, pos + c)) (rn_seed nd))) (rs_entropy s),
       Ok (r, map (stream src) (seq pos c))).
  Proof.
    intros H Hn Hg. apply root_of_rooted in H. unfold draw. rewrite H, Hn.
    destruct nd as [mo g sd]; cbn in *. subst g. reflexivity.
  Qed.
  Lemma rooted_gen s n r : rooted s n r -> exists nd src pos, nth_error (rs_nodes s) r = Some nd /\ rn_gen nd = Some (src, pos).
  Proof.
    induction 1; auto. exists nd. destruct (rn_gen nd) as [[a b]|] eqn:E; [|congruence]. eauto.
  Qed.

  (** Invariant: a node without generator has a mother. *)
  Definition well_formed (s : rstate_) : Prop :=
    forall x nd, nth_error (rs_nodes s) x = Some nd -> rn_gen nd = None -> rn_mother nd <> None.

  (** One step changes at most one node. *)
  Lemma draw_cases s n c : (exists e, draw V stream s n c = (s, Raise e)) \/
    exists r nd src pos, rooted s n r /\ nth_error (rs_nodes s) r = Some nd /\ rn_gen nd = Some (src, pos) /\
      draw V stream s n c =
      (mkRS (replace_node (rs_nodes s) r (mkRN (rn_mother nd) (Some (src, pos + c)) (rn_seed nd))) (rs_entropy s),
       Ok (r, map (stream src) (seq pos c))).
  Proof.
    destruct (root_of s n) as [r|e] eqn:E.
    - right. apply root_of_rooted in E. destruct (rooted_gen s n r E) as (nd & src & pos & Hn & Hg).
      exists r, nd, src, pos. repeat (split; auto). now apply draw_rooted.
    - left. exists e. unfold draw. now rewrite E.
  Qed.

  Lemma nth_snoc {A} (l : list A) x j : nth_error (l ++ [x]) j = if j =? length l then Some x else nth_error l j.
  Proof.
    destruct (Nat.eqb_spec j (length l)) as [->|Hne].
    - now rewrite nth_error_app2, Nat.sub_diag by lia.
    - destruct (Nat.lt_ge_cases j (length l)); [now rewrite nth_error_app1 by auto|].
      rewrite (proj2 (nth_error_None (l ++ [x]) j)); [|rewrite app_length; cbn; lia].
      symmetry. apply nth_error_None; lia.
  Qed.

  (** Node records after one step, node by node. *)
  Lemma step_node s o j : j < length (rs_nodes s) ->
    exists nd, nth_error (rs_nodes s) j = Some nd /\
    exists nd', nth_error (rs_nodes (fst (step s o))) j = Some nd' /\
      (reassigns j o \/
       (rn_mother nd' = rn_mother nd /\ rn_seed nd' = rn_seed nd /\
        ((rn_gen nd = None /\ rn_gen nd' = None) \/
         exists src pos k, rn_gen nd = Some (src, pos) /\ rn_gen nd' = Some (src, pos + k)))).
  Proof.
    intros Hj. destruct (nth_error (rs_nodes s) j) as [nd|] eqn:E; [|apply nth_error_None in E; lia].
    exists nd; split; auto.
    assert (Hsame : rn_mother nd = rn_mother nd /\ rn_seed nd = rn_seed nd /\
        ((rn_gen nd = None /\ rn_gen nd = None) \/
         exists src pos k, rn_gen nd = Some (src, pos) /\ rn_gen nd = Some (src, pos + k))).
    { split; [auto|]. split; [auto|]. destruct (rn_gen nd) as [[a b]|]; [right; exists a, b, 0; rewrite Nat.add_0_r; auto|auto]. }
    destruct o as [mo sd|n sd|n m|n c]; cbn [rstep].
    - destruct (default_rng sd (rs_entropy s)) as [g e]; cbn [fst rs_nodes].
      exists nd. rewrite nth_error_app1 by auto. split; auto.
    - destruct (nth_error (rs_nodes s) n) as [x|] eqn:En; cbn [fst]; [|exists nd; auto].
      assert (n < length (rs_nodes s)) by (apply nth_error_Some; congruence).
      destruct (default_rng sd (rs_entropy s)) as [g e]; cbn [fst rs_nodes].
      rewrite nth_replace by auto. destruct (Nat.eqb_spec j n) as [->|].
      + eexists; split; [reflexivity|]. left; cbn; auto.
      + exists nd; auto.
    - destruct (nth_error (rs_nodes s) n) as [x|] eqn:En; cbn [fst]; [|exists nd; auto].
      assert (n < length (rs_nodes s)) by (apply nth_error_Some; congruence).
      destruct m; [|destruct (default_rng (rn_seed x) (rs_entropy s)) as [g e]]; cbn [fst rs_nodes];
      rewrite nth_replace by auto; destruct (Nat.eqb_spec j n) as [->|];
      try (eexists; split; [reflexivity|left; cbn; auto]); exists nd; auto.
    - destruct (draw_cases s n c) as [[e ->]|(r & nr & src & pos & Hr & Hn & Hg & ->)]; cbn [fst rs_nodes].
      + exists nd; auto.
      + assert (r < length (rs_nodes s)) by (apply nth_error_Some; congruence).
        rewrite nth_replace by auto. destruct (Nat.eqb_spec j r) as [->|].
        * eexists; split; [reflexivity|]. right; cbn. assert (nr = nd) by congruence; subst nr.
          split; [auto|]. split; [auto|]. right. exists src, pos, c. auto.
        * exists nd; auto.
  Qed.
  Lemma step_length s o : length (rs_nodes s) <= length (rs_nodes (fst (step s o))).
  Proof.
    destruct o as [mo sd|n sd|n m|n c]; cbn [rstep].
    - destruct (default_rng sd (rs_entropy s)); cbn. rewrite app_length; lia.
    - destruct (nth_error (rs_nodes s) n) eqn:En; [|auto].
      destruct (default_rng sd (rs_entropy s)); cbn [fst rs_nodes]. rewrite length_replace; auto.
      apply nth_error_Some; congruence.
    - destruct (nth_error (rs_nodes s) n) eqn:En; [|auto].
      destruct m; [|destruct (default_rng (rn_seed r) (rs_entropy s))]; cbn [fst rs_nodes]; rewrite length_replace; auto;
      apply nth_error_Some; congruence.
    - destruct (draw_cases s n c) as [[e ->]|(r & nr & src & pos & Hr & Hn & Hg & ->)]; cbn [fst rs_nodes]; [auto|].
      rewrite length_replace; auto. apply nth_error_Some; congruence.
  Qed.

  Lemma run_app s a b : run s (a ++ b) =
    let (s1, o1) := run s a in let (s2, o2) := run s1 b in (s2, o1 ++ o2).
  Proof.
    revert s; induction a as [|x a IH]; intros s.
    - cbn. destruct (run s b); reflexivity.
    - cbn [app rrun]. destruct (step s x) as [s1 o1]. rewrite IH.
      destruct (run s1 a) as [s2 o2]. destruct (run s2 b). now rewrite app_assoc.
  Qed.

  (** Following the mother. *)
  Lemma child_follows s n nd m ops : nth_error (rs_nodes s) n = Some nd -> rn_gen nd = None -> rn_mother nd = Some m ->
    Forall (fun o => ~ reassigns n o) ops ->
    exists nd', nth_error (rs_nodes (fst (run s ops))) n = Some nd' /\ rn_gen nd' = None /\ rn_mother nd' = Some m.
  Proof.
    revert s nd; induction ops as [|o t IH]; intros s nd Hn Hg Hm Ho; cbn [rrun fst]; [eauto|].
    inversion Ho as [|? ? H1 H2]; subst.
    destruct (step_node s o n) as (nd0 & E0 & nd' & E' & [H|(Hm' & _ & [[Hg0 Hg']|(a & b & k & Hga & _)])]).
    - apply nth_error_Some; congruence.
    - tauto.
    - assert (nd0 = nd) by congruence; subst nd0.
      destruct (step s o) as [s1 o1]; cbn [fst] in *.
      specialize (IH s1 nd' E' Hg' ltac:(congruence) H2).
      destruct (run s1 t); auto.
    - congruence.
  Qed.

  Lemma child_draw s n nd m c : nth_error (rs_nodes s) n = Some nd -> rn_gen nd = None -> rn_mother nd = Some m ->
    is_ok (snd (draw V stream s m c)) -> draw V stream s n c = draw V stream s m c.
  Proof.
    intros Hn Hg Hm Hok. destruct (draw_cases s m c) as [[e H]|(r & nr & src & pos & Hr & Hnr & Hgr & H)].
    - rewrite H in Hok. destruct Hok as [v Hv]. cbn in Hv. discriminate.
    - rewrite H. eapply draw_rooted; eauto. eapply rt_step; eauto.
  Qed.

  (** The stream of a node that keeps its generator. *)
  Lemma drawn_stream ops : forall s n nd src pos, nth_error (rs_nodes s) n = Some nd -> rn_gen nd = Some (src, pos) ->
    Forall (fun o => ~ reassigns n o) ops ->
    exists k, drawn_from n (snd (run s ops)) = map (stream src) (seq pos k) /\
      exists nd', nth_error (rs_nodes (fst (run s ops))) n = Some nd' /\ rn_gen nd' = Some (src, pos + k).
  Proof.
    induction ops as [|o t IH]; intros s n nd src pos Hn Hg Ho.
    { exists 0; cbn. split; auto. exists nd. rewrite Nat.add_0_r; auto. }
    inversion Ho as [|? ? H1 H2]; subst. cbn [rrun].
    assert (Hd : exists k1, drawn_from n (snd (step s o)) = map (stream src) (seq pos k1) /\
       exists nd', nth_error (rs_nodes (fst (step s o))) n = Some nd' /\ rn_gen nd' = Some (src, pos + k1)).
    { destruct o as [mo sd|n' sd|n' m|n' c].
      - exists 0. cbn [rstep]. destruct (default_rng sd (rs_entropy s)); cbn.
        split; auto. exists nd. rewrite nth_error_app1 by (apply nth_error_Some; congruence).
        rewrite Nat.add_0_r; auto.
      - exists 0. cbn [rstep]. assert (n <> n') by (intros ->; apply H1; reflexivity).
        destruct (nth_error (rs_nodes s) n') eqn:E; cbn; [|split; auto; exists nd; rewrite Nat.add_0_r; auto].
        destruct (default_rng sd (rs_entropy s)); cbn. split; auto. exists nd.
        rewrite nth_replace by (apply nth_error_Some; congruence).
        destruct (Nat.eqb_spec n n'); [congruence|]. rewrite Nat.add_0_r; auto.
      - exists 0. cbn [rstep]. assert (n <> n') by (intros ->; apply H1; reflexivity).
        destruct (nth_error (rs_nodes s) n') eqn:E; cbn; [|split; auto; exists nd; rewrite Nat.add_0_r; auto].
        destruct m; [|destruct (default_rng (rn_seed r) (rs_entropy s))]; cbn; (split; [auto|]); exists nd;
        (rewrite nth_replace by (apply nth_error_Some; congruence));
        (destruct (Nat.eqb_spec n n'); [congruence|]); rewrite Nat.add_0_r; auto.
      - cbn [rstep].
        destruct (draw_cases s n' c) as [[e ->]|(r & nr & src' & pos' & Hr & Hnr & Hgr & ->)]; cbn [fst snd].
        + exists 0; cbn. split; auto. exists nd. rewrite Nat.add_0_r; auto.
        + assert (r < length (rs_nodes s)) by (apply nth_error_Some; congruence).
          unfold drawn_from; cbn [flat_map]. cbn [rs_nodes]. rewrite nth_replace by auto.
          destruct (Nat.eqb_spec r n) as [->|Hne].
          * assert (nr = nd) by congruence; subst nr.
            assert (src' = src /\ pos' = pos) as [-> ->] by (split; congruence).
            exists c. rewrite app_nil_r, Nat.eqb_refl. split; auto. eexists; split; [reflexivity|]. auto.
          * exists 0. split; auto. destruct (Nat.eqb_spec n r); [congruence|].
            exists nd. rewrite Nat.add_0_r; auto. }
    destruct Hd as (k1 & D1 & nd1 & N1 & G1).
    destruct (step s o) as [s1 o1]; cbn [fst snd] in *.
    destruct (IH s1 n nd1 src (pos + k1) N1 G1 H2) as (k2 & D2 & nd2 & N2 & G2).
    destruct (run s1 t) as [s2 o2]; cbn [fst snd] in *.
    exists (k1 + k2). split.
    - unfold drawn_from in *. rewrite flat_map_app, D1, D2, seq_app, map_app. reflexivity.
    - exists nd2. split; auto. rewrite G2. do 2 f_equal; lia.
  Qed.

  (** Resolution always succeeds without cycles. *)
  Definition all_rooted (s : rstate_) : Prop := forall x, x < length (rs_nodes s) -> exists r, rooted s x r.

  Lemma rooted_same s s' x r :
    rooted s x r ->
    (forall y nd, nth_error (rs_nodes s) y = Some nd -> ancestor s x y ->
        exists nd', nth_error (rs_nodes s') y = Some nd' /\ rn_mother nd' = rn_mother nd /\
          (rn_gen nd' = None <-> rn_gen nd = None)) ->
    rooted s' x r.
  Proof.
    induction 1; intros Hs.
    - destruct (Hs x nd H (anc_refl s x)) as (nd' & E & _ & Hg). eapply rt_self; eauto. tauto.
    - destruct (Hs x nd H (anc_refl s x)) as (nd' & E & Hm & Hg). eapply rt_step; [exact E|tauto|rewrite Hm; exact H1|].
      apply IHrooted. intros y nd0 Hy Ha. apply Hs; auto. eapply anc_step; eauto.
  Qed.

  Lemma step_all_rooted s o t : acyclic_ops stream s (o :: t) -> all_rooted s -> all_rooted (fst (step s o)).
  Proof.
    intros Hac Hall. cbn [acyclic_ops] in Hac. destruct Hac as [Hac _].
    assert (Hkeep : (forall j, ~ reassigns j o) -> forall x r, x < length (rs_nodes s) -> rooted s x r -> rooted (fst (step s o)) x r).
    { intros Hno x r Hx Hr. eapply rooted_same; eauto. intros y nd Hy _.
      destruct (step_node s o y) as (nd0 & E0 & nd' & E' & [H|(Hm' & _ & Hg)]).
      - apply nth_error_Some; congruence.
      - now elim (Hno y).
      - assert (nd0 = nd) by congruence; subst. exists nd'. split; auto. split; auto.
        destruct Hg as [[-> ->]|(a & b & k & -> & ->)]; [tauto|]. split; discriminate. }
    destruct o as [mo sd|n sd|n m|n c].
    - intros x Hx. cbn [rstep] in *. destruct (default_rng sd (rs_entropy s)) as [g e]; cbn [fst rs_nodes] in *.
      rewrite app_length in Hx; cbn in Hx.
      destruct (Nat.eq_dec x (length (rs_nodes s))) as [->|].
      + exists (length (rs_nodes s)). eapply rt_self; cbn [rs_nodes]; [rewrite nth_snoc, Nat.eqb_refl; reflexivity|cbn; congruence].
      + destruct (Hall x ltac:(lia)) as [r Hr]. exists r. apply (Hkeep ltac:(intros; cbn; tauto) x r ltac:(lia) Hr).
    - cbn [rstep]. destruct (nth_error (rs_nodes s) n) as [nd|] eqn:En; [|cbn; auto].
      assert (Hn : n < length (rs_nodes s)) by (apply nth_error_Some; congruence).
      destruct (default_rng sd (rs_entropy s)) as [g e]; cbn [fst rs_nodes].
      set (s' := mkRS _ e). assert (Hnode : forall y, nth_error (rs_nodes s') y = if y =? n then Some (mkRN (rn_mother nd) (Some (g, 0)) sd) else nth_error (rs_nodes s) y)
        by (intros; apply nth_replace; auto).
      intros x Hx. unfold s' in Hx; cbn [rs_nodes] in Hx. rewrite length_replace in Hx by auto.
      destruct (Hall x Hx) as [r Hr]. clear Hx. induction Hr.
      + exists x. destruct (Nat.eq_dec x n) as [->|]; eapply rt_self; rewrite ?Hnode.
        * rewrite Nat.eqb_refl; reflexivity.
        * cbn; congruence.
        * destruct (Nat.eqb_spec x n); [congruence|eauto].
        * auto.
      + destruct (Nat.eq_dec x n) as [->|].
        * exists n. eapply rt_self; rewrite ?Hnode; [rewrite Nat.eqb_refl; reflexivity|cbn; congruence].
        * destruct IHHr as [r' Hr']. exists r'. eapply rt_step; eauto. rewrite Hnode. destruct (Nat.eqb_spec x n); [congruence|auto].
    - cbn [rstep]. destruct (nth_error (rs_nodes s) n) as [nd|] eqn:En; [|cbn; auto].
      assert (Hn : n < length (rs_nodes s)) by (apply nth_error_Some; congruence).
      destruct m as [m|].
      + cbn [fst]. set (s' := mkRS _ _). assert (Hnode : forall y, nth_error (rs_nodes s') y = if y =? n then Some (mkRN (Some m) None (rn_seed nd)) else nth_error (rs_nodes s) y)
        by (intros; apply nth_replace; auto).
        destruct Hac as [Hm Hnanc].
        assert (Hrm : exists r, rooted s' m r).
        { destruct (Hall m Hm) as [r Hr]. exists r. eapply rooted_same; eauto.
          intros y nd0 Hy Ha. rewrite Hnode. destruct (Nat.eqb_spec y n) as [->|]; [tauto|].
          exists nd0; tauto. }
        destruct Hrm as [rm Hrm].
        assert (Hrn : rooted s' n rm).
        { eapply rt_step; [rewrite Hnode, Nat.eqb_refl; reflexivity|reflexivity|reflexivity|auto]. }
        intros x Hx. unfold s' in Hx; cbn [rs_nodes] in Hx. rewrite length_replace in Hx by auto.
        destruct (Hall x Hx) as [r Hr]. clear Hx. induction Hr.
        * destruct (Nat.eq_dec x n) as [->|]; [eauto|]. exists x. eapply rt_self; eauto. rewrite Hnode. destruct (Nat.eqb_spec x n); [congruence|eauto].
        * destruct (Nat.eq_dec x n) as [->|]; [eauto|]. destruct IHHr as [r' Hr']. exists r'. eapply rt_step; eauto. rewrite Hnode. destruct (Nat.eqb_spec x n); [congruence|eauto].
      + destruct (default_rng (rn_seed nd) (rs_entropy s)) as [g e]; cbn [fst].
        set (s' := mkRS _ e). assert (Hnode : forall y, nth_error (rs_nodes s') y = if y =? n then Some (mkRN None (Some (g, 0)) (rn_seed nd)) else nth_error (rs_nodes s) y)
          by (intros; apply nth_replace; auto).
        intros x Hx. unfold s' in Hx; cbn [rs_nodes] in Hx. rewrite length_replace in Hx by auto.
        assert (Hrn : rooted s' n n) by (eapply rt_self; [rewrite Hnode, Nat.eqb_refl; reflexivity|cbn; congruence]).
        destruct (Hall x Hx) as [r Hr]. clear Hx. induction Hr.
        * destruct (Nat.eq_dec x n) as [->|]; [eauto|]. exists x. eapply rt_self; eauto. rewrite Hnode. destruct (Nat.eqb_spec x n); [congruence|eauto].
        * destruct (Nat.eq_dec x n) as [->|]; [eauto|]. destruct IHHr as [r' Hr']. exists r'. eapply rt_step; eauto. rewrite Hnode. destruct (Nat.eqb_spec x n); [congruence|eauto].
    - intros x Hx.
      assert (Hx' : x < length (rs_nodes s)).
      { cbn [rstep] in Hx. destruct (draw_cases s n c) as [[e E]|(r & nr & src & pos & Hr & Hn & Hg & E)]; rewrite E in Hx; cbn [fst rs_nodes] in Hx; auto.
        rewrite length_replace in Hx; auto. apply nth_error_Some; congruence. }
      destruct (Hall x Hx') as [r Hr]. exists r. apply Hkeep; [intros; cbn; tauto|auto|auto].
  Qed.

  Lemma run_all_rooted ops : forall s, acyclic_ops stream s ops -> all_rooted s -> all_rooted (fst (run s ops)).
  Proof.
    induction ops as [|o t IH]; intros s Hac Hall; [auto|].
    pose proof (step_all_rooted s o t Hac Hall) as H1. cbn [acyclic_ops] in Hac. destruct Hac as [_ Hac].
    cbn [rrun]. destruct (step s o) as [s1 o1]; cbn [fst] in *. specialize (IH s1 Hac H1).
    destruct (run s1 t); auto.
  Qed.

  Lemma acyclic_app a b : forall s, acyclic_ops stream s (a ++ b) <->
    acyclic_ops stream s a /\ acyclic_ops stream (fst (run s a)) b.
  Proof.
    induction a as [|o a IH]; intros s; [cbn; tauto|].
    cbn [app acyclic_ops]. rewrite IH. cbn [rrun]. destruct (step s o) as [s1 o1]; cbn [fst].
    destruct (run s1 a); cbn [fst]. tauto.
  Qed.
End Random.

(** Two entropy sources. *)
Section Entropy.
  Variable V : Type.
  Variables stream stream' : source -> nat -> V.
  Hypothesis agree : forall z k, stream (Seeded z) k = stream' (Seeded z) k.

  Definition seeded_state (s : rstate_) : Prop :=
    forall x nd, nth_error (rs_nodes s) x = Some nd ->
      rn_seed nd <> None /\ (rn_gen nd = None \/ exists z p, rn_gen nd = Some (Seeded z, p)).

  Lemma seeded_replace s i nd e : seeded_state s -> i < length (rs_nodes s) ->
    rn_seed nd <> None -> (rn_gen nd = None \/ exists z p, rn_gen nd = Some (Seeded z, p)) ->
    seeded_state (mkRS (replace_node (rs_nodes s) i nd) e).
  Proof.
    intros Hs Hi H1 H2 x nd' Hx. cbn [rs_nodes] in Hx. rewrite nth_replace in Hx by auto.
    destruct (x =? i); [injection Hx as <-; auto|]. eapply Hs; eauto.
  Qed.

  Lemma step_seeded s o : seeded_state s -> always_seeded o ->
    rstep V stream s o = rstep V stream' s o /\ seeded_state (fst (rstep V stream s o)).
  Proof.
    intros Hs Ho. destruct o as [mo sd|n sd|n m|n c]; cbn [rstep].
    - split; [reflexivity|]. cbn in Ho. destruct sd as [z|]; [|congruence]. cbn.
      intros x nd Hx. cbn [rs_nodes] in Hx. rewrite nth_snoc in Hx.
      destruct (x =? length (rs_nodes s)); [injection Hx as <-; cbn; split; [congruence|right; eauto]|eapply Hs; eauto].
    - split; [reflexivity|]. destruct (nth_error (rs_nodes s) n) as [nd|] eqn:E; [|auto].
      cbn in Ho. destruct sd as [z|]; [|congruence]. cbn [default_rng fst].
      apply seeded_replace; [auto|apply nth_error_Some; congruence|cbn; congruence|cbn; eauto].
    - split; [reflexivity|]. destruct (nth_error (rs_nodes s) n) as [nd|] eqn:E; [|auto].
      destruct (Hs n nd E) as [Hsd _]. destruct (rn_seed nd) as [z|] eqn:Es; [|congruence].
      assert (Hn : n < length (rs_nodes s)) by (apply nth_error_Some; congruence).
      destruct m; [|cbn [default_rng]]; cbn [fst]; (apply seeded_replace; [auto|auto|cbn; congruence|cbn; eauto]).
    - destruct (draw_cases V stream s n c) as [[e E]|(r & nd & src & pos & Hr & Hn & Hg & E)].
      + rewrite E. unfold draw in *. destruct (root_of s n) as [r|e'] eqn:R.
        * apply root_of_rooted in R. destruct (rooted_gen s n r R) as (nd & src & pos & Hn & Hg).
          rewrite Hn in *. destruct nd as [mo g sd]; cbn in Hg; subst g. discriminate.
        * injection E as ->. auto.
      + rewrite E. destruct (Hs r nd Hn) as [H1 [H2|(z & p & H2)]]; [congruence|].
        assert (src = Seeded z) by congruence; subst src.
        rewrite (draw_rooted V stream' s n r c nd (Seeded z) pos Hr Hn Hg). split.
        * do 4 f_equal. apply map_ext. intros; apply agree.
        * cbn [fst]. apply seeded_replace; auto; [apply nth_error_Some; congruence|cbn; eauto].
  Qed.

  Lemma run_seeded ops : forall s, seeded_state s -> Forall always_seeded ops ->
    rrun V stream s ops = rrun V stream' s ops.
  Proof.
    induction ops as [|o t IH]; intros s Hs Ho; [reflexivity|].
    inversion Ho as [|? ? H1 H2]; subst. destruct (step_seeded s o Hs H1) as [E Hs']. cbn [rrun].
    rewrite <- E. destruct (rstep V stream s o) as [s1 o1]; cbn [fst] in Hs'. now rewrite IH.
  Qed.
End Entropy.
