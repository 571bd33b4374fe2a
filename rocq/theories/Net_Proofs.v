(** Proofs about scenarios. *)
From Coq Require Import List ZArith Bool Arith Lia.
From Verif Require Import Base BaseLemmas Net_Model Net_Spec.
Import ListNotations.

Lemma mem_In : forall a l, mem a l = true <-> In a l.
Proof. intros a l. unfold mem. rewrite existsb_exists. split; [intros [b [Hb E]]; apply Nat.eqb_eq in E; subst; exact Hb|intros H; exists a; split; [exact H|apply Nat.eqb_refl]]. Qed.
Lemma mem_not_In : forall a l, mem a l = false <-> ~ In a l.
Proof. intros a l. rewrite <- mem_In. destruct (mem a l); split; congruence. Qed.
Lemma key_eqb_eq : forall k l, key_eqb k l = true <-> k = l.
Proof. intros [a b] [c d]. unfold key_eqb. cbn [fst snd]. rewrite andb_true_iff, !Nat.eqb_eq. split; [intros [-> ->]; reflexivity|intros E; injection E; auto]. Qed.
Lemma key_eqb_neq : forall k l, key_eqb k l = false <-> k <> l.
Proof. intros k l. rewrite <- key_eqb_eq. destruct (key_eqb k l); split; congruence. Qed.
Lemma key_same : forall a b a' b', key a b = key a' b' <-> same_link a b a' b'.
Proof. intros. unfold key, same_link. split; [intros E; injection E; lia|intros [[-> ->]|[-> ->]]; f_equal; lia]. Qed.
Lemma lookup_update_same : forall k c l, lookup k (update k c l) = Some c.
Proof.
  intros k c l. induction l as [|[k' c'] l IH]; cbn [update lookup].
  - replace (key_eqb k k) with true by (symmetry; apply key_eqb_eq; reflexivity). reflexivity.
  - destruct (key_eqb k k') eqn:E; cbn [lookup]; [replace (key_eqb k k) with true by (symmetry; apply key_eqb_eq; reflexivity); reflexivity|]. rewrite E. exact IH.
Qed.
Lemma lookup_update_other : forall k k' c l, k <> k' -> lookup k (update k' c l) = lookup k l.
Proof.
  intros k k' c l H. induction l as [|[q v] l IH]; cbn [update lookup].
  - replace (key_eqb k k') with false by (symmetry; apply key_eqb_neq; exact H). reflexivity.
  - destruct (key_eqb k' q) eqn:E; cbn [lookup].
    + apply key_eqb_eq in E. subst q. replace (key_eqb k k') with false by (symmetry; apply key_eqb_neq; exact H). reflexivity.
    + rewrite IH. reflexivity.
Qed.
Lemma update_keys : forall k c l, In k (map fst l) -> map fst (update k c l) = map fst l.
Proof.
  intros k c l. induction l as [|[k' c'] l IH]; intros H; [destruct H|]. cbn [update]. destruct (key_eqb k k') eqn:E.
  - apply key_eqb_eq in E. subst. reflexivity.
  - cbn [map fst] in *. f_equal. apply IH. destruct H as [H|H]; [apply key_eqb_neq in E; congruence|exact H].
Qed.
Lemma update_new : forall k c l, ~ In k (map fst l) -> update k c l = l ++ [(k, c)].
Proof.
  intros k c l. induction l as [|[k' c'] l IH]; intros H; [reflexivity|]. cbn [update app]. replace (key_eqb k k') with false.
  - f_equal. apply IH. intros G. apply H. right. exact G.
  - symmetry. apply key_eqb_neq. intros ->. apply H. left. reflexivity.
Qed.
Lemma lookup_In : forall k c l, lookup k l = Some c -> In (k, c) l.
Proof. intros k c l. induction l as [|[k' c'] l IH]; cbn [lookup]; intros H; [discriminate|]. destruct (key_eqb k k') eqn:E; [apply key_eqb_eq in E; subst; left; congruence|right; apply IH; exact H]. Qed.
Lemma lookup_None : forall k l, lookup k l = None <-> ~ In k (map fst l).
Proof.
  intros k l. induction l as [|[k' c'] l IH]; cbn [lookup map fst]; [split; [intros _ []|reflexivity]|]. destruct (key_eqb k k') eqn:E.
  - apply key_eqb_eq in E. subst. split; [discriminate|intros H; destruct H; left; reflexivity].
  - apply key_eqb_neq in E. rewrite IH. split; [intros H [G|G]; [congruence|exact (H G)]|intros H G; apply H; right; exact G].
Qed.
Lemma In_lookup : forall k c l, NoDup (map fst l) -> In (k, c) l -> lookup k l = Some c.
Proof.
  intros k c l. induction l as [|[k' c'] l IH]; intros Hn H; [destruct H|]. cbn [map fst] in Hn. inversion Hn as [|? ? Hn1 Hn2]. cbn [lookup]. destruct H as [H|H].
  - injection H as -> ->. replace (key_eqb k k) with true by (symmetry; apply key_eqb_eq; reflexivity). reflexivity.
  - destruct (key_eqb k k') eqn:E; [apply key_eqb_eq in E; subst; destruct Hn1; apply in_map_iff; exists (k', c); split; [reflexivity|exact H]|]. apply IH; assumption.
Qed.
Lemma NoDup_update : forall k c l, NoDup (map fst l) -> NoDup (map fst (update k c l)).
Proof.
  intros k c l H. assert (D : forall p q : nat * nat, {p = q} + {p <> q}) by (decide equality; apply Nat.eq_dec). destruct (in_dec D k (map fst l)) as [G|G].
  - rewrite update_keys by exact G. exact H.
  - rewrite update_new by exact G. rewrite map_app. cbn [map fst]. apply NoDup_Add with (a := k) (l := map fst l); [|split; assumption]. rewrite <- (app_nil_r (map fst l)) at 1. apply Add_app.
Qed.
Lemma NoDup_snoc : forall {A} (a : A) l, NoDup l -> ~ In a l -> NoDup (l ++ [a]).
Proof. intros A a l H G. apply NoDup_Add with (a := a) (l := l); [|split; assumption]. rewrite <- (app_nil_r l) at 1. apply Add_app. Qed.
Lemma In_update : forall k c l e, In e (update k c l) -> e = (k, c) \/ In e l.
Proof.
  intros k c l e. induction l as [|[k' c'] l IH]; cbn [update]; intros H; [destruct H as [<-|[]]; left; reflexivity|].
  destruct (key_eqb k k'); destruct H as [<-|H]; [left; reflexivity|right; right; exact H|right; left; reflexivity|]. destruct (IH H) as [->|G]; [left; reflexivity|right; right; exact G].
Qed.
Lemma update_has : forall k c l, In c (map snd (update k c l)).
Proof. intros k c l. induction l as [|[k' c'] l IH]; cbn [update map snd]; [left; reflexivity|]. destruct (key_eqb k k'); cbn [map snd]; [left; reflexivity|right; exact IH]. Qed.
Lemma update_keeps : forall k c l v, In v (map snd l) -> lookup k l <> Some v -> In v (map snd (update k c l)).
Proof.
  intros k c l v. induction l as [|[k' c'] l IH]; cbn [update map snd lookup]; intros H G; [destruct H|]. destruct (key_eqb k k'); cbn [map snd].
  - destruct H as [H|H]; [congruence|right; exact H].
  - destruct H as [H|H]; [left; exact H|right; apply IH; assumption].
Qed.
Lemma remove_In : forall c l d, NoDup l -> (In d (remove_first c l) <-> In d l /\ d <> c).
Proof.
  intros c l d. induction l as [|e l IH]; intros H; cbn [remove_first]; [cbn; tauto|]. inversion H as [|? ? H1 H2]. destruct (Nat.eqb_spec c e) as [->|E].
  - split; [intros G; split; [right; exact G|intros ->; contradiction]|]. intros [[G|G] F]; [congruence|exact G].
  - cbn [In]. rewrite IH by exact H2. split; [intros [->|[G F]]; [split; [left; reflexivity|congruence]|split; [right; exact G|exact F]]|]. intros [[G|G] F]; [left; exact G|right; split; assumption].
Qed.
Lemma remove_NoDup : forall c l, NoDup l -> NoDup (remove_first c l).
Proof.
  intros c l. induction l as [|e l IH]; intros H; [exact H|]. inversion H as [|? ? H1 H2]. cbn [remove_first]. destruct (Nat.eqb_spec c e); [exact H2|]. constructor; [|apply IH; exact H2].
  intros G. apply remove_In in G; [|exact H2]. destruct G as [G _]. contradiction.
Qed.
Lemma index_spec : forall a l, In a l -> exists i, index a l = Ok i /\ nth_error l i = Some a.
Proof.
  intros a l. induction l as [|b l IH]; intros H; [destruct H|]. cbn [index]. destruct (Nat.eqb_spec a b) as [->|E]; [exists 0; split; reflexivity|].
  destruct H as [H|H]; [congruence|]. destruct (IH H) as [i [E1 E2]]. exists (S i). rewrite E1. split; [reflexivity|exact E2].
Qed.
Lemma index_fails : forall a l, ~ In a l -> index a l = Raise ValueError.
Proof. intros a l. induction l as [|b l IH]; intros H; [reflexivity|]. cbn [index]. destruct (Nat.eqb_spec a b) as [->|E]; [destruct H; left; reflexivity|]. rewrite IH; [reflexivity|]. intros G. apply H. right. exact G. Qed.
Lemma index_nth : forall l i a, NoDup l -> nth_error l i = Some a -> index a l = Ok i.
Proof.
  intros l. induction l as [|b l IH]; intros i a H E; [destruct i; discriminate|]. inversion H as [|? ? H1 H2]. cbn [index]. destruct i as [|i].
  - injection E as ->. rewrite Nat.eqb_refl. reflexivity.
  - cbn [nth_error] in E. destruct (Nat.eqb_spec a b) as [->|_]; [destruct H1; apply (nth_error_In l i); exact E|]. rewrite (IH i a H2 E). reflexivity.
Qed.
Lemma index_app : forall a l m i, index a l = Ok i -> index a (l ++ m) = Ok i.
Proof. intros a l m. induction l as [|b l IH]; intros i H; [discriminate|]. cbn [index app] in *. destruct (Nat.eqb a b); [exact H|]. destruct (index a l) as [k|e]; [|discriminate]. cbn [bind] in *. rewrite (IH k eq_refl). exact H. Qed.

(** ** Invariant of every scenario *)
Record good (v : scenario) : Prop := Good {
  g_devices : NoDup (devices v);
  g_keys : NoDup (map fst (links v));
  g_ends : forall k c, In (k, c) (links v) -> exists a b, In a (devices v) /\ In b (devices v) /\ k = key a b;
  g_channels : NoDup (channels v);
  g_linked : forall c, In c (map snd (links v)) -> In c (channels v);
  g_used : forall c, In c (channels v) -> c = default_channel v \/ In c (map snd (links v)) }.
Lemma good_new : forall d, good (new_scenario d).
Proof. intros d. constructor; cbn; try (constructor; fail); try (intros; contradiction); try (constructor; [intros []|constructor]); try (intros e [<-|[]]; left; reflexivity). Qed.
Lemma scn_put : forall w s v k, scn (put w s v) k = if Nat.eqb k s then v else scn w k.
Proof. reflexivity. Qed.
(** What a successful call of set_channel does to its scenario *)
Definition relinked (v : scenario) (a b c : nat) : scenario :=
  let links' := update (key a b) c (links v) in
  let chs := match lookup (key a b) (links v) with Some o => if mem o (map snd links') then channels v else remove_first o (channels v) | None => channels v end in
  Scenario (devices v) (modifiable v) (default_channel v) links' (if mem c chs then chs else chs ++ [c]).
Lemma set_channel_result : forall w s a b c, good (scn w s) ->
  (registered w s a -> registered w s b -> exists w', set_channel w s a b c = (w', Ok tt) /\ (forall k, scn w' k = if Nat.eqb k s then relinked (scn w s) a b c else scn w k) /\ owner w' = owner w /\
     (forall d, assigned w' d = if (Nat.eqb d c && negb (mem c (match lookup (key a b) (links (scn w s)) with Some o => if mem o (map snd (update (key a b) c (links (scn w s)))) then channels (scn w s) else remove_first o (channels (scn w s)) | None => channels (scn w s) end)))%bool then Some s else assigned w d)) /\
  (~ (registered w s a /\ registered w s b) -> set_channel w s a b c = (w, Raise ValueError)).
Proof.
  intros w s a b c G. unfold registered, set_channel. split.
  - intros Ha Hb. apply mem_In in Ha, Hb. rewrite Ha, Hb. cbn [negb]. set (v := scn w s) in *.
    assert (E : (let '(chs, fails) := match lookup (key a b) (links v) with
      | Some o => if mem o (map snd (update (key a b) c (links v))) then (channels v, false) else if mem o (channels v) then (remove_first o (channels v), false) else (channels v, true)
      | None => (channels v, false) end in (chs, fails)) = (match lookup (key a b) (links v) with Some o => if mem o (map snd (update (key a b) c (links v))) then channels v else remove_first o (channels v) | None => channels v end, false)).
    { destruct (lookup (key a b) (links v)) as [o|] eqn:El; [|reflexivity]. destruct (mem o (map snd (update (key a b) c (links v)))); [reflexivity|].
      assert (Ho : mem o (channels v) = true) by (apply mem_In, (g_linked v G), in_map_iff; exists (key a b, o); split; [reflexivity|apply lookup_In; exact El]). rewrite Ho. reflexivity. }
    unfold relinked. cbv zeta. fold v.
    destruct (match lookup (key a b) (links v) with Some o => _ | None => _ end) as [chs fails]. cbn beta iota in E. injection E as -> ->.
    set (ch := match lookup (key a b) (links v) with Some o => if mem o (map snd (update (key a b) c (links v))) then channels v else remove_first o (channels v) | None => channels v end).
    destruct (mem c ch) eqn:Em; eexists; (split; [reflexivity|]); (split; [reflexivity|]); (split; [reflexivity|]); intros d; cbn [assigned put negb]; rewrite ?andb_false_r, ?andb_true_r; reflexivity.
  - intros H. destruct (mem a (devices (scn w s))) eqn:Ha; [|reflexivity]. destruct (mem b (devices (scn w s))) eqn:Hb; [|reflexivity]. exfalso. apply H. split; apply mem_In; assumption.
Qed.
Lemma good_relinked : forall v a b c, good v -> In a (devices v) -> In b (devices v) -> good (relinked v a b c).
Proof.
  intros v a b c [G1 G2 G3 G4 G5 G6] Ha Hb. unfold relinked. cbv zeta. set (k := key a b). set (l' := update k c (links v)).
  set (ch := match lookup k (links v) with Some o => if mem o (map snd l') then channels v else remove_first o (channels v) | None => channels v end).
  assert (N : NoDup ch) by (unfold ch; destruct (lookup k (links v)) as [o|]; [destruct (mem o (map snd l')); [exact G4|apply remove_NoDup; exact G4]|exact G4]).
  assert (K : forall d, In d ch <-> In d (channels v) /\ (lookup k (links v) = Some d -> In d (map snd l'))).
  { intros d. unfold ch. destruct (lookup k (links v)) as [o|] eqn:El; [|split; [intros H; split; [exact H|discriminate]|tauto]]. destruct (mem o (map snd l')) eqn:Em.
    - apply mem_In in Em. split; [intros H; split; [exact H|intros E; injection E as ->; exact Em]|tauto].
    - apply mem_not_In in Em. rewrite remove_In by exact G4. split; [intros [H E]; split; [exact H|congruence]|]. intros [H E]. split; [exact H|]. intros ->. apply Em, E. reflexivity. }
  constructor; cbn [devices links channels default_channel].
  - exact G1.
  - apply NoDup_update. exact G2.
  - intros q d H. destruct (In_update _ _ _ _ H) as [E|H']; [injection E as -> ->; exists a, b; auto|apply (G3 q d H')].
  - destruct (mem c ch) eqn:Em; [exact N|]. apply NoDup_snoc; [exact N|apply mem_not_In; exact Em].
  - intros d H. assert (D : d = c \/ In d ch).
    { apply in_map_iff in H as [[q e] [E H]]. cbn [snd] in E. subst e. destruct (In_update _ _ _ _ H) as [E|H']; [left; congruence|]. right. apply K. split; [apply G5, in_map_iff; exists (q, d); auto|]. intros _. apply in_map_iff. exists (q, d). auto. }
    destruct (mem c ch) eqn:Em; [destruct D as [->|D]; [apply mem_In; exact Em|exact D]|]. apply in_or_app. destruct D as [->|D]; [right; left; reflexivity|left; exact D].
  - intros d H. assert (D : d = c \/ In d ch) by (destruct (mem c ch); [right; exact H|apply in_app_or in H as [H|[H|[]]]; [right; exact H|left; congruence]]).
    destruct D as [->|D]; [right; apply update_has|]. apply K in D as [D1 D2]. destruct (G6 d D1) as [E|E]; [left; exact E|right].
    destruct (option_map (Nat.eqb d) (lookup k (links v))) as [[|]|] eqn:O.
    + destruct (lookup k (links v)) as [o|]; [|discriminate]. cbn in O. injection O as O. apply Nat.eqb_eq in O. subst o. apply D2. reflexivity.
    + apply update_keeps; [exact E|]. destruct (lookup k (links v)) as [o|]; [|discriminate]. cbn in O. injection O as O. apply Nat.eqb_neq in O. congruence.
    + apply update_keeps; [exact E|]. destruct (lookup k (links v)); discriminate.
Qed.
Definition grown (v : scenario) (d : nat) : scenario := Scenario (devices v ++ [d]) (modifiable v) (default_channel v) (links v) (channels v).
Lemma add_device_result : forall w s d,
  (registered w s d -> add_device w s d = (w, Raise ValueError)) /\
  (~ registered w s d -> modifiable (scn w s) = false -> add_device w s d = (w, Raise RuntimeError)) /\
  (~ registered w s d -> modifiable (scn w s) = true -> exists w', fst (add_device w s d) = w' /\ (forall k, scn w' k = if Nat.eqb k s then grown (scn w s) d else scn w k) /\ assigned w' = assigned w /\
     snd (add_device w s d) = match owner w d with Some o => if Nat.eqb o s then Ok tt else Raise NotImplementedError | None => Ok tt end /\
     (forall e, owner w' e = if (Nat.eqb e d && match owner w d with None => true | _ => false end)%bool then Some s else owner w e)).
Proof.
  intros w s d. unfold registered, add_device. split; [|split].
  - intros H. apply mem_In in H. rewrite H. reflexivity.
  - intros H M. apply mem_not_In in H. rewrite H, M. reflexivity.
  - intros H M. apply mem_not_In in H. rewrite H, M. cbn [negb]. unfold grown. eexists. split; [reflexivity|]. destruct (owner w d) as [o|] eqn:Eo.
    + destruct (Nat.eqb o s); cbn [fst snd]; (split; [intros k; rewrite scn_put, M; reflexivity|]); (split; [reflexivity|]); (split; [reflexivity|]); intros e; cbn; rewrite andb_false_r; reflexivity.
    + cbn [fst snd scn]. split; [intros k; rewrite scn_put, M; reflexivity|]. split; [reflexivity|]. split; [reflexivity|]. intros e. cbn. rewrite andb_true_r. reflexivity.
Qed.
Lemma good_grown : forall v d, good v -> ~ In d (devices v) -> good (grown v d).
Proof.
  intros v d [G1 G2 G3 G4 G5 G6] H. constructor; cbn [grown devices links channels default_channel]; try assumption.
  - apply NoDup_snoc; assumption.
  - intros k c Hk. destruct (G3 k c Hk) as [a [b [Ha [Hb E]]]]. exists a, b. split; [apply in_or_app; left; exact Ha|]. split; [apply in_or_app; left; exact Hb|exact E].
Qed.
Lemma good_step : forall w o, (forall s, good (scn w s)) -> forall s, good (scn (fst (step w o)) s).
Proof.
  intros w o G s. destruct o as [t d|t a b c|t m]; cbn [step].
  - destruct (add_device_result w t d) as [R1 [R2 R3]]. destruct (in_dec Nat.eq_dec d (devices (scn w t))) as [H|H]; [rewrite (R1 H); apply G|].
    destruct (modifiable (scn w t)) eqn:M; [|rewrite (R2 H eq_refl); apply G]. destruct (R3 H eq_refl) as [w' [-> [E _]]]. rewrite E. destruct (Nat.eqb s t); [apply good_grown; [apply G|exact H]|apply G].
  - destruct (set_channel_result w t a b c (G t)) as [R1 R2]. destruct (in_dec Nat.eq_dec a (devices (scn w t))) as [Ha|Ha]; [destruct (in_dec Nat.eq_dec b (devices (scn w t))) as [Hb|Hb]|].
    + destruct (R1 Ha Hb) as [w' [-> [E _]]]. cbn [fst]. rewrite E. destruct (Nat.eqb s t); [apply good_relinked; [apply G|exact Ha|exact Hb]|apply G].
    + rewrite R2 by (intros [_ F]; exact (Hb F)). apply G.
    + rewrite R2 by (intros [F _]; exact (Ha F)). apply G.
  - unfold set_mode. cbn [fst]. rewrite scn_put. destruct (Nat.eqb s t); [|apply G]. destruct (G t) as [G1 G2 G3 G4 G5 G6]. constructor; assumption.
Qed.
Lemma run_snoc : forall w l o, run w (l ++ [o]) = fst (step (run w l) o).
Proof. intros. unfold run. rewrite fold_left_app. reflexivity. Qed.
Lemma good_run : forall l w, (forall s, good (scn w s)) -> forall s, good (scn (run w l) s).
Proof. intros l. induction l as [|o l IH]; intros w G; [exact G|]. apply (IH (fst (step w o))). apply good_step. exact G. Qed.
Lemma good_reachable : forall default w, reachable default w -> forall s, good (scn w s).
Proof. intros default w [l ->]. apply good_run. intros s. apply good_new. Qed.
Lemma default_kept : forall w o s, default_channel (scn (fst (step w o)) s) = default_channel (scn w s).
Proof.
  intros w o s. destruct o as [t d|t a b c|t m]; cbn [step].
  - unfold add_device. destruct (mem d _); [reflexivity|]. destruct (negb _); [reflexivity|]. destruct (owner w d) as [o|]; [destruct (Nat.eqb o t)|]; cbn [fst scn put]; destruct (Nat.eqb_spec s t); subst; reflexivity.
  - unfold set_channel. destruct (negb _); [reflexivity|]. destruct (negb _); [reflexivity|]. destruct (match lookup _ _ with Some _ => _ | None => _ end) as [chs fails]. destruct fails; [|destruct (mem c chs)]; cbn [fst scn put]; destruct (Nat.eqb_spec s t); subst; reflexivity.
  - cbn. destruct (Nat.eqb_spec s t); subst; reflexivity.
Qed.
Lemma default_run : forall l w s, default_channel (scn (run w l) s) = default_channel (scn w s).
Proof. intros l. induction l as [|o l IH]; intros w s; [reflexivity|]. change (run w (o :: l)) with (run (fst (step w o)) l). rewrite IH. apply default_kept. Qed.
(** The default channel stays listed, and is not linked explicitly, if it is never assigned explicitly *)
Lemma default_listed : forall default s l, default_only_by_default default s l ->
  In (default s) (channels (scn (run (start default) l) s)) /\ ~ In (default s) (map snd (links (scn (run (start default) l) s))).
Proof.
  intros default s l. induction l as [|o l IH] using rev_ind; intros H; [cbn; split; [left; reflexivity|intros []]|].
  assert (H' : default_only_by_default default s l) by (intros a b F; apply (H a b), in_or_app; left; exact F).
  destruct (IH H') as [I1 I2]. rewrite run_snoc. set (w := run (start default) l) in *. assert (G : forall s, good (scn w s)) by (apply good_reachable with default; exists l; reflexivity).
  destruct o as [t d|t a b c|t m]; cbn [step].
  - destruct (add_device_result w t d) as [R1 [R2 R3]]. destruct (in_dec Nat.eq_dec d (devices (scn w t))) as [F|F]; [rewrite (R1 F); auto|].
    destruct (modifiable (scn w t)) eqn:M; [|rewrite (R2 F eq_refl); auto]. destruct (R3 F eq_refl) as [w' [-> [E _]]]. rewrite E. destruct (Nat.eqb_spec s t) as [->|_]; auto.
  - destruct (set_channel_result w t a b c (G t)) as [R1 R2].
    destruct (in_dec Nat.eq_dec a (devices (scn w t))) as [Ha|Ha]; [destruct (in_dec Nat.eq_dec b (devices (scn w t))) as [Hb|Hb]|]; [|rewrite R2 by (intros [_ F]; exact (Hb F)); auto|rewrite R2 by (intros [F _]; exact (Ha F)); auto].
    destruct (R1 Ha Hb) as [w' [-> [E _]]]. cbn [fst]. rewrite E. destruct (Nat.eqb_spec s t) as [->|_]; [|auto].
    assert (Hc : c <> default t) by (intros ->; apply (H a b), in_or_app; right; left; reflexivity).
    unfold relinked. cbv zeta. cbn [channels links]. set (l' := update (key a b) c (links (scn w t))).
    set (ch := match lookup (key a b) (links (scn w t)) with Some o => if mem o (map snd l') then channels (scn w t) else remove_first o (channels (scn w t)) | None => channels (scn w t) end).
    assert (Hd : In (default t) ch).
    { unfold ch. destruct (lookup (key a b) (links (scn w t))) as [o|] eqn:El; [|exact I1]. destruct (mem o (map snd l')); [exact I1|]. apply remove_In; [apply (g_channels _ (G t))|]. split; [exact I1|].
      intros <-. apply I2, in_map_iff. exists (key a b, default t). split; [reflexivity|apply lookup_In; exact El]. }
    split; [destruct (mem c ch); [exact Hd|apply in_or_app; left; exact Hd]|]. intros F. apply in_map_iff in F as [[q e] [Ee F]]. cbn [snd] in Ee. subst e. destruct (In_update _ _ _ _ F) as [E'|F']; [congruence|].
    apply I2, in_map_iff. exists (q, default t). auto.
  - unfold set_mode. cbn [fst]. rewrite scn_put. destruct (Nat.eqb_spec s t) as [->|_]; auto.
Qed.
(** ** Channels of a device *)
Definition other (d : nat) (k : nat * nat) : nat := if Nat.eqb (fst k) d then snd k else fst k.
Lemma key_with : forall d k a b, k = key a b -> (Nat.eqb d (fst k) || Nat.eqb d (snd k))%bool = true -> k = key d (other d k) /\ (other d k = a \/ other d k = b).
Proof.
  intros d k a b -> H. unfold other, key in *. cbn [fst snd] in *. apply orb_true_iff in H. rewrite !Nat.eqb_eq in H. destruct (Nat.eqb_spec (Nat.min a b) d); split; try (f_equal; lia); lia.
Qed.
Lemma other_key : forall d b, other d (key d b) = b.
Proof. intros d b. unfold other, key. cbn [fst snd]. destruct (Nat.eqb_spec (Nat.min d b) d); lia. Qed.
Lemma key_of : forall d b, (Nat.eqb d (fst (key d b)) || Nat.eqb d (snd (key d b)))%bool = true.
Proof. intros d b. unfold key. cbn [fst snd]. apply orb_true_iff. rewrite !Nat.eqb_eq. lia. Qed.
Lemma channel_value : forall w s a b, registered w s a -> registered w s b -> channel w s a b = Ok (match lookup (key a b) (links (scn w s)) with Some c => c | None => default_channel (scn w s) end).
Proof. intros w s a b Ha Hb. unfold channel. apply mem_In in Ha, Hb. rewrite Ha, Hb. reflexivity. Qed.
Lemma channel_fails : forall w s a b, ~ (registered w s a /\ registered w s b) -> channel w s a b = Raise ValueError.
Proof. intros w s a b H. unfold channel. destruct (mem a _) eqn:Ha; [|reflexivity]. destruct (mem b _) eqn:Hb; [|reflexivity]. exfalso. apply H. split; apply mem_In; assumption. Qed.
Lemma channel_sym : forall w s a b, channel w s a b = channel w s b a.
Proof. intros w s a b. unfold channel. replace (key b a) with (key a b) by (unfold key; f_equal; lia). destruct (negb (mem a _)), (negb (mem b _)); reflexivity. Qed.
Lemma NoDup_filter' : forall {A} (f : A -> bool) l, NoDup l -> NoDup (filter f l).
Proof. intros A f l. apply NoDup_filter. Qed.
Lemma NoDup_others : forall d l, NoDup (map fst l) -> (forall k c, In (k, c) l -> k = key d (other d k)) -> NoDup (map (fun e : (nat * nat) * nat => other d (fst e)) l).
Proof.
  intros d l. induction l as [|[k c] l IH]; intros H K; cbn [map fst] in *; [constructor|]. inversion H as [|? ? H1 H2]. constructor; [|apply IH; [exact H2|intros q e F; apply (K q e); right; exact F]].
  intros F. apply in_map_iff in F as [[q e] [E F]]. cbn [fst] in E. apply H1. apply in_map_iff. exists (q, e). split; [|exact F]. cbn [fst]. rewrite (K q e (or_intror F)), (K k c (or_introl eq_refl)), E. reflexivity.
Qed.
Lemma NoDup_map_filter : forall (f : (nat * nat) * nat -> bool) l, NoDup (map fst l) -> NoDup (map fst (filter f l)).
Proof.
  intros f l. induction l as [|e l IH]; cbn [map filter]; intros H; [constructor|]. inversion H as [|? ? H1 H2]. destruct (f e); [|apply IH; exact H2]. cbn [map]. constructor; [|apply IH; exact H2].
  intros F. apply H1. apply in_map_iff in F as [q [E F]]. apply filter_In in F as [F _]. apply in_map_iff. exists q. auto.
Qed.
Lemma device_channels_all : forall w s d active, good (scn w s) -> registered w s d -> exists cs, device_channels w active s d false = Ok cs /\ forall c, In c cs <-> exists b, registered w s b /\ channel w s d b = Ok c.
Proof.
  intros w s d active G Hd. unfold device_channels. pose proof Hd as Hd'. apply mem_In in Hd'. rewrite Hd'. cbn [negb].
  set (f := fun e : (nat * nat) * nat => ((Nat.eqb d (fst (fst e)) || Nat.eqb d (snd (fst e))) && (true || active (snd e)))%bool). set (found := filter f (links (scn w s))). eexists. split; [reflexivity|].
  assert (Kf : forall k c, In (k, c) found -> In (k, c) (links (scn w s)) /\ k = key d (other d k) /\ In (other d k) (devices (scn w s))).
  { intros k c F. apply filter_In in F as [F1 F2]. split; [exact F1|]. unfold f in F2. cbn [fst snd] in F2. rewrite andb_true_r in F2. destruct (g_ends _ G _ _ F1) as [a [b [Ha [Hb E]]]]. destruct (key_with d k a b E F2) as [E1 [E2|E2]]; (split; [exact E1|rewrite E2; assumption]). }
  set (others := map (fun e : (nat * nat) * nat => other d (fst e)) found).
  assert (No : NoDup others) by (apply NoDup_others; [apply NoDup_map_filter, (g_keys _ G)|intros k c F; apply (Kf k c F)]).
  assert (Io : incl others (devices (scn w s))) by (intros b F; apply in_map_iff in F as [[k c] [<- F]]; apply (Kf k c F)).
  assert (Lo : length others = length found) by apply map_length.
  assert (Fd : forall b c, lookup (key d b) (links (scn w s)) = Some c -> In (key d b, c) found) by (intros b c E; apply filter_In; split; [apply lookup_In; exact E|unfold f; cbn [fst snd]; rewrite key_of; reflexivity]).
  intros c. rewrite in_app_iff. split.
  - intros [H|H].
    + apply in_map_iff in H as [[k c'] [E H]]. cbn [snd] in E. subst c'. destruct (Kf k c H) as [K1 [K2 K3]]. exists (other d k). split; [exact K3|]. rewrite channel_value by assumption. rewrite <- K2, (In_lookup _ _ _ (g_keys _ G) K1). reflexivity.
    + destruct (Nat.ltb_spec (length found) (length (devices (scn w s)))) as [L|L]; [|destruct H]. destruct H as [<-|[]].
      destruct (existsb (fun b => negb (mem b others)) (devices (scn w s))) eqn:Ex.
      * apply existsb_exists in Ex as [b [Hb E]]. apply negb_true_iff, mem_not_In in E. exists b. split; [exact Hb|]. rewrite channel_value by assumption. destruct (lookup (key d b) (links (scn w s))) as [c|] eqn:El; [|reflexivity].
        exfalso. apply E. apply in_map_iff. exists (key d b, c). split; [apply other_key|apply Fd; exact El].
      * exfalso. assert (I : incl (devices (scn w s)) others) by (intros b Hb; apply mem_In; destruct (mem b others) eqn:E; [reflexivity|]; rewrite <- Ex; apply existsb_exists; exists b; rewrite E; auto). pose proof (NoDup_incl_length (g_devices _ G) I). lia.
  - intros [b [Hb E]]. rewrite channel_value in E by assumption. injection E as E. destruct (lookup (key d b) (links (scn w s))) as [c'|] eqn:El.
    + subst c'. left. apply in_map_iff. exists (key d b, c). split; [reflexivity|apply Fd; exact El].
    + right. destruct (Nat.ltb_spec (length found) (length (devices (scn w s)))) as [L|L]; [left; exact E|]. exfalso.
      assert (I : incl (devices (scn w s)) others) by (apply NoDup_length_incl; [exact No|lia|exact Io]). specialize (I b Hb). apply in_map_iff in I as [[k c'] [E' I]]. cbn [fst] in E'. destruct (Kf k c' I) as [K1 [K2 _]]. rewrite E' in K2. subst k.
      apply lookup_None in El. apply El, in_map_iff. exists (key d b, c'). auto.
Qed.
(** ** Propagation *)
Section Propagation.
Context {Sig Smp State Rea : Type}.
Context (sample : Rea -> State -> State -> Smp) (reciprocal : Rea -> Smp -> State -> State -> Smp) (propagate : Smp -> Sig -> Sig * Sig).
Hypothesis pure : forall smp x, snd (propagate smp x) = x.
Definition entry (rea : Rea) (st : nat -> State) (tx : nat -> Sig) (i j : nat) : Sig :=
  fst (propagate (if Nat.leb i j then sample rea (st j) (st i) else reciprocal rea (sample rea (st i) (st j)) (st j) (st i)) (tx j)).
Lemma replace_same : forall (tx : nat -> Sig) i k, replace tx i (tx i) k = tx k.
Proof. intros. unfold replace. destruct (Nat.eqb_spec k i); subst; reflexivity. Qed.
Lemma visit_spec : forall link rea st a b m tx tx0 c, (forall k, tx k = tx0 k) -> b <= a -> link a b = Ok c -> exists m' tx', visit sample reciprocal propagate link rea st a b (m, tx) = Ok (m', tx') /\ (forall k, tx' k = tx0 k) /\
  (forall i j, m' i j = if (Nat.eqb (Nat.max i j) a && Nat.eqb (Nat.min i j) b)%bool then Some (entry (rea c) st tx0 i j) else m i j).
Proof.
  intros link rea st a b m tx tx0 c T L E. unfold visit. rewrite E. cbn [bind].
  pose proof (pure (sample (rea c) (st a) (st b)) (tx a)) as P. destruct (propagate (sample (rea c) (st a) (st b)) (tx a)) as [y x] eqn:Ep. cbn [snd] in P. subst x.
  destruct (Nat.eqb_spec a b) as [->|N].
  - exists (write m b b y), (replace tx b (tx b)). split; [reflexivity|]. split; [intros k; rewrite replace_same; apply T|]. intros i j. unfold write.
    replace ((Nat.max i j =? b) && (Nat.min i j =? b))%bool with ((i =? b) && (j =? b))%bool by (destruct (Nat.eqb_spec i b), (Nat.eqb_spec j b), (Nat.eqb_spec (Nat.max i j) b), (Nat.eqb_spec (Nat.min i j) b); cbn; try reflexivity; lia).
    destruct (Nat.eqb_spec i b); [|reflexivity]. destruct (Nat.eqb_spec j b); [|reflexivity]. subst. cbn [andb]. unfold entry. rewrite Nat.leb_refl, <- T, Ep. reflexivity.
  - pose proof (pure (reciprocal (rea c) (sample (rea c) (st a) (st b)) (st b) (st a)) (replace tx a (tx a) b)) as P.
    destruct (propagate (reciprocal (rea c) (sample (rea c) (st a) (st b)) (st b) (st a)) (replace tx a (tx a) b)) as [z x] eqn:Eq. cbn [snd] in P. subst x. rewrite replace_same in Eq.
    eexists. eexists. split; [reflexivity|]. split; [intros k; rewrite replace_same, replace_same; apply T|]. intros i j. unfold write, entry.
    destruct (Nat.eqb_spec i a) as [->|Hi].
    + destruct (Nat.eqb_spec j b) as [->|Hj].
      * cbn [andb]. replace (Nat.max a b =? a) with true by (symmetry; apply Nat.eqb_eq; lia). replace (Nat.min a b =? b) with true by (symmetry; apply Nat.eqb_eq; lia). cbn [andb].
        replace (Nat.leb a b) with false by (symmetry; apply Nat.leb_gt; lia). rewrite <- T, Eq. reflexivity.
      * cbn [andb]. replace (a =? b) with false by (symmetry; apply Nat.eqb_neq; exact N). cbn [andb]. replace ((Nat.max a j =? a) && (Nat.min a j =? b))%bool with false; [reflexivity|].
        symmetry. apply andb_false_iff. rewrite !Nat.eqb_neq. lia.
    + cbn [andb]. destruct (Nat.eqb_spec i b) as [->|Hb]; cbn [andb].
      * destruct (Nat.eqb_spec j a) as [->|Hj].
        -- replace (Nat.max b a =? a) with true by (symmetry; apply Nat.eqb_eq; lia). replace (Nat.min b a =? b) with true by (symmetry; apply Nat.eqb_eq; lia). cbn [andb].
           replace (Nat.leb b a) with true by (symmetry; apply Nat.leb_le; lia). rewrite <- T, Ep. reflexivity.
        -- replace ((Nat.max b j =? a) && (Nat.min b j =? b))%bool with false; [reflexivity|]. symmetry. apply andb_false_iff. rewrite !Nat.eqb_neq. lia.
      * replace ((Nat.max i j =? a) && (Nat.min i j =? b))%bool with false; [reflexivity|]. symmetry. apply andb_false_iff. rewrite !Nat.eqb_neq. lia.
Qed.
Lemma visits_In : forall n a b, In (a, b) (visits n) <-> b <= a /\ a < n.
Proof.
  intros n a b. unfold visits. rewrite in_flat_map. split.
  - intros [x [H F]]. apply in_map_iff in F as [y [E F]]. injection E as -> ->. apply in_seq in H, F. lia.
  - intros [H F]. exists a. split; [apply in_seq; lia|]. apply in_map_iff. exists b. split; [reflexivity|apply in_seq; lia].
Qed.
Lemma fold_raise : forall link rea st L e, fold_left (fun (acc : result (matrix (Sig := Sig) * (nat -> Sig))) v => do a <- acc; visit sample reciprocal propagate link rea st (fst v) (snd v) a) L (Raise e) = Raise e.
Proof. intros link rea st L e. induction L as [|v L IH]; [reflexivity|]. exact IH. Qed.
Lemma fold_visits : forall link rea st tx0 pos L m tx, (forall k, tx k = tx0 k) -> (forall a b, In (a, b) L -> b <= a /\ link a b = Ok (pos a b)) ->
  exists m' tx', fold_left (fun (acc : result (matrix (Sig := Sig) * (nat -> Sig))) v => do a <- acc; visit sample reciprocal propagate link rea st (fst v) (snd v) a) L (Ok (m, tx)) = Ok (m', tx') /\ (forall k, tx' k = tx0 k) /\
  (forall i j, (In (Nat.max i j, Nat.min i j) L -> m' i j = Some (entry (rea (pos (Nat.max i j) (Nat.min i j))) st tx0 i j)) /\ (~ In (Nat.max i j, Nat.min i j) L -> m' i j = m i j)).
Proof.
  intros link rea st tx0 pos L. induction L as [|[a b] L IH]; intros m tx T H; [exists m, tx; split; [reflexivity|]; split; [exact T|]; intros i j; split; [intros []|reflexivity]|].
  cbn [fold_left fst snd bind]. destruct (H a b (or_introl eq_refl)) as [Hab Hl]. destruct (visit_spec link rea st a b m tx tx0 _ T Hab Hl) as [m1 [tx1 [-> [T1 M1]]]].
  destruct (IH m1 tx1 T1 (fun a' b' F => H a' b' (or_intror F))) as [m2 [tx2 [E2 [T2 M2]]]]. exists m2, tx2. split; [exact E2|]. split; [exact T2|]. intros i j. destruct (M2 i j) as [A B]. specialize (M1 i j).
  assert (D : {In (Nat.max i j, Nat.min i j) L} + {~ In (Nat.max i j, Nat.min i j) L}) by (apply in_dec; decide equality; apply Nat.eq_dec).
  split.
  - intros F. destruct D as [D|D]; [apply A; exact D|]. rewrite (B D), M1. destruct F as [F|F]; [|contradiction]. injection F as Fa Fb. subst a b. rewrite !Nat.eqb_refl. reflexivity.
  - intros F. rewrite B by (intros G; apply F; right; exact G). rewrite M1. destruct ((Nat.max i j =? a) && (Nat.min i j =? b))%bool eqn:E; [|reflexivity]. exfalso. apply F. left. apply andb_true_iff in E. rewrite !Nat.eqb_eq in E. destruct E as [-> ->]. reflexivity.
Qed.
Lemma propagate_all_spec : forall n link rea st tx pos, (forall a b, b <= a < n -> link a b = Ok (pos a b)) ->
  exists m tx', propagate_all sample reciprocal propagate n link rea st tx = Ok (m, tx') /\ (forall k, tx' k = tx k) /\
  (forall i j, i < n -> j < n -> m i j = Some (entry (rea (pos (Nat.max i j) (Nat.min i j))) st tx i j)) /\ (forall i j, n <= i \/ n <= j -> m i j = None).
Proof.
  intros n link rea st tx pos H. destruct (fold_visits link rea st tx pos (visits n) (fun _ _ => None) tx (fun _ => eq_refl)) as [m [tx' [E [T M]]]].
  - intros a b F. apply visits_In in F. split; [tauto|]. apply H. tauto.
  - exists m, tx'. split; [exact E|]. split; [exact T|]. split; intros i j.
    + intros Hi Hj. apply M. apply visits_In. lia.
    + intros F. apply M. rewrite visits_In. lia.
Qed.
Lemma propagate_all_raises : forall n link rea st tx, (forall a b, b <= a < n -> exists c, link a b = Ok c) \/ exists e, propagate_all sample reciprocal propagate n link rea st tx = Raise e.
Proof.
  intros n link rea st tx. unfold propagate_all. assert (K : forall L m t, (forall a b, In (a, b) L -> exists c, link a b = Ok c) \/ exists e, fold_left (fun (acc : result (matrix (Sig := Sig) * (nat -> Sig))) v => do a <- acc; visit sample reciprocal propagate link rea st (fst v) (snd v) a) L (Ok (m, t)) = Raise e).
  { induction L as [|[a b] L IH]; intros m t; [left; intros a b []|]. cbn [fold_left bind fst snd]. unfold visit at 2. destruct (link a b) as [c|e] eqn:E; [|right; exists e; cbn [bind]; apply fold_raise]. cbn [bind].
    destruct (propagate (sample (rea c) (st a) (st b)) (t a)) as [y x]. destruct (Nat.eqb a b); [|destruct (propagate _ _) as [z u]];
    match goal with |- _ \/ exists e, fold_left _ L (Ok (?mm, ?tt)) = _ => destruct (IH mm tt) as [F|F] end; [|right; exact F| |right; exact F]; left; intros a' b' [G|G]; try (injection G as <- <-; exists c; exact E); apply F; exact G. }
  destruct (K (visits n) (fun _ _ => None) tx) as [F|F]; [left; intros a b G; apply F, visits_In; lia|right; exact F].
Qed.
End Propagation.
(** ** Triggers *)
Lemma set_add_In : forall d l e, In e (set_add d l) <-> e = d \/ In e l.
Proof. intros d l e. unfold set_add. destruct (mem d l) eqn:E; [apply mem_In in E; split; [auto|intros [->|H]; assumption]|]. cbn [In]. split; [intros [->|H]; auto|intros [->|H]; auto]. Qed.
Lemma set_discard_In : forall d l e, In e (set_discard d l) <-> e <> d /\ In e l.
Proof. intros d l e. unfold set_discard. rewrite filter_In, negb_true_iff, Nat.eqb_neq. split; intros [? ?]; split; auto. Qed.
Lemma set_model_consistent : forall ds g d t, consistent ds g -> In d ds -> consistent ds (set_model g d t).
Proof.
  intros ds g d t C Hd e u He. unfold set_model, remove_from, put_members. cbn [members model]. pose proof (C e u He) as Ce. pose proof (C e t He) as Ct.
  destruct (Nat.eqb_spec u t) as [->|Nu].
  - rewrite set_add_In. destruct (Nat.eqb_spec t (model g d)) as [E|N].
    + rewrite set_discard_In. destruct (Nat.eqb_spec e d) as [->|Ne]; [split; auto|]. rewrite <- E. rewrite Ct. tauto.
    + destruct (Nat.eqb_spec e d) as [->|Ne]; [split; auto|]. rewrite Ct. tauto.
  - destruct (Nat.eqb_spec u (model g d)) as [->|N].
    + rewrite set_discard_In. destruct (Nat.eqb_spec e d) as [->|Ne]; [split; [intros [F _]; congruence|congruence]|]. rewrite Ce. tauto.
    + destruct (Nat.eqb_spec e d) as [->|Ne]; [|exact Ce]. split; [intros F; apply Ce in F; congruence|congruence].
Qed.
Lemma add_to_consistent : forall ds g d t, consistent ds g -> In d ds -> consistent ds (add_to g t d).
Proof.
  intros ds g d t C Hd e u He. unfold add_to. set (g1 := if Nat.eqb (model g d) t then g else set_model g d t).
  assert (C1 : consistent ds g1) by (unfold g1; destruct (Nat.eqb _ _); [exact C|apply set_model_consistent; assumption]).
  assert (M1 : model g1 d = t) by (unfold g1; destruct (Nat.eqb_spec (model g d) t); [assumption|cbn; rewrite Nat.eqb_refl; reflexivity]).
  cbn [put_members members model]. destruct (Nat.eqb_spec u t) as [->|Nu]; [|apply C1; exact He]. rewrite set_add_In, (C1 e t He). split; [intros [->|F]; assumption|auto].
Qed.
Lemma alone_model : forall own ds g, model (fold_left (fun g d => put_members g (own d) (set_add d (members g (own d)))) ds g) = model g.
Proof. intros own ds. induction ds as [|d ds IH]; intros g; [reflexivity|]. cbn [fold_left]. rewrite IH. reflexivity. Qed.
Lemma alone_members : forall own ds g e t, In e (members (fold_left (fun g d => put_members g (own d) (set_add d (members g (own d)))) ds g) t) <-> In e (members g t) \/ (In e ds /\ own e = t).
Proof.
  intros own ds. induction ds as [|d ds IH]; intros g e t; cbn [fold_left]; [cbn; tauto|]. rewrite IH. cbn [put_members members In]. destruct (Nat.eqb_spec t (own d)) as [->|N]; [rewrite set_add_In|].
  - split; [intros [[->|F]|[F E]]; auto|intros [F|[[->|F] E]]; auto].
  - split; [intros [F|[F E]]; auto|intros [F|[[->|F] E]]; auto; congruence].
Qed.
Lemma alone_consistent : forall own ds, consistent ds (alone own ds).
Proof. intros own ds d t Hd. unfold alone. rewrite alone_members, alone_model. cbn. tauto. Qed.
Lemma run_consistent : forall ds l g, consistent ds g -> Forall (fun o => concerns ds o /\ forall t d, o <> RemoveFrom t d) l -> consistent ds (fold_left trigger_step l g).
Proof.
  intros ds l. induction l as [|o l IH]; intros g C H; [exact C|]. inversion H as [|? ? [H1 H2] H3]. cbn [fold_left]. apply IH; [|exact H3].
  destruct o as [d t|t d|t d]; cbn [trigger_step concerns] in *; [apply set_model_consistent|apply add_to_consistent|exfalso; apply (H2 t d); reflexivity]; assumption.
Qed.
