From Coq Require Import List Arith Bool Lia Permutation.
From Verif Require Import Base BaseLemmas MonteConc_Model.
Import ListNotations.

Notation occ := (count_occ Nat.eq_dec).

Definition content (w : world) (f : nat) : list nat := match w_fut w f with Some l => l | None => [] end.
Definition sum_over (g : nat -> nat) (l : list nat) : nat := list_sum (map g l).

Lemma sum_over_app g a b : sum_over g (a ++ b) = sum_over g a + sum_over g b.
Proof. unfold sum_over; rewrite map_app, list_sum_app; auto. Qed.
Lemma sum_over_cons g x l : sum_over g (x :: l) = g x + sum_over g l.
Proof. reflexivity. Qed.
Lemma sum_over_ext g h l : (forall x, In x l -> g x = h x) -> sum_over g l = sum_over h l.
Proof. intros H; unfold sum_over; f_equal; apply map_ext_in; auto. Qed.
Lemma sum_over_upd g h k l : NoDup l -> In k l -> (forall x, x <> k -> h x = g x) ->
  sum_over h l + g k = sum_over g l + h k.
Proof.
  induction 1 as [|x l Hx Hl IH]; intros Hin He; [destruct Hin|].
  rewrite !sum_over_cons. destruct (Nat.eq_dec x k) as [->|Hne].
  - rewrite (sum_over_ext h g l); [lia|]. intros y Hy; apply He; intros ->; auto.
  - destruct Hin as [->|Hin]; [congruence|]. specialize (IH Hin He). rewrite (He x) by auto. lia.
Qed.
Lemma sum_over_incl g l1 l2 : NoDup l1 -> incl l1 l2 -> sum_over g l1 <= sum_over g l2.
Proof.
  revert l2; induction l1 as [|x l1 IH]; intros l2 Hnd Hi; [cbn; lia|].
  apply NoDup_cons_iff in Hnd as [Hx Hnd].
  destruct (in_split x l2) as (a & b & ->); [apply Hi; now left|].
  rewrite sum_over_app, !sum_over_cons.
  specialize (IH (a ++ b) Hnd). rewrite sum_over_app in IH.
  enough (sum_over g l1 <= sum_over g a + sum_over g b) by lia. apply IH.
  intros y Hy. specialize (Hi y (or_intror Hy)).
  rewrite in_app_iff in *; destruct Hi as [|[->|]]; auto; congruence.
Qed.
Lemma sum_over_ge g l x : In x l -> g x <= sum_over g l.
Proof.
  induction l as [|y l IH]; intros H; [destruct H|].
  rewrite sum_over_cons; destruct H as [->|H]; [lia|]. specialize (IH H); lia.
Qed.
Lemma sum_over_pos g l : 0 < sum_over g l -> exists x, In x l /\ 0 < g x.
Proof.
  induction l as [|y l IH]; rewrite ?sum_over_cons; [cbn; lia|]. intros H.
  destruct (Nat.eq_dec (g y) 0); [|exists y; split; [now left|lia]].
  destruct IH as (x & Hx & Hg); [lia|]. exists x; split; auto; now right.
Qed.
Lemma occ_app (a b : list nat) x : occ (a ++ b) x = occ a x + occ b x.
Proof. apply count_occ_app. Qed.

Lemma NoDup_app_l {X} (a b : list X) : NoDup (a ++ b) -> NoDup a.
Proof.
  induction a as [|x a IH]; cbn; intros H; [constructor|].
  apply NoDup_cons_iff in H as [H1 H2]. constructor; auto. rewrite in_app_iff in H1; tauto.
Qed.

(** Places a batch can be in: stashed at an actor or contained in a future. *)
Definition places (n : nat) (w : world) (b : nat) : nat :=
  sum_over (fun a => occ (w_res w a) b) (seq 0 n) + sum_over (fun f => occ (content w f) b) (seq 0 (w_next w)).

Record winv (n : nat) (w : world) (R P : list nat) : Prop := {
  wi_places : forall b, places n w b <= 1;
  wi_made : forall b, 0 < places n w b -> In b (w_made w);
  wi_actors : Permutation (map snd (w_map w)) (seq 0 n);
  wi_keys : NoDup (map fst (w_map w));
  wi_lt : forall f, In f (map fst (w_map w)) -> f < w_next w;
  wi_fresh : forall f, w_next w <= f -> w_fut w f = None;
  wi_copy : forall a f l, w_copy w a = Some (f, l) ->
      In (f, a) (w_map w) /\ w_fut w f = None /\ exists t, w_res w a = l ++ t;
  wi_R : NoDup R;
  wi_Rlt : forall f, In f R -> f < w_next w /\ w_fut w f <> None;
  wi_Rmap : forall f, In f R -> In f (map fst (w_map w)) -> w_run w = RPop f;
  wi_run : forall f, w_run w = RPop f -> In f R;
  wi_P : match w_fin w with FNone => P = [] | FProc rest => NoDup (P ++ rest) end;
  wi_Plt : forall f, In f P -> f < w_next w /\ w_fut w f <> None;
  wi_rest : match w_fin w with FNone => True | FProc rest => forall f, In f rest -> f < w_next w end;
  wi_count : forall b, occ (w_count w) b =
      sum_over (fun f => occ (content w f) b) R + sum_over (fun f => occ (content w f) b) P }.

Lemma winv_init n : winv n (w_init n) [] [].
Proof.
  assert (Hz : forall b, places n (w_init n) b = 0).
  { intros b; unfold places, content.
    assert (Z : forall g l, (forall x, g x = 0) -> sum_over g l = 0)
      by (intros g l Hg; induction l; auto; rewrite sum_over_cons, Hg; auto).
    rewrite !Z by auto; auto. }
  constructor; cbn [w_init w_map w_next w_fut w_copy w_run w_fin w_count w_made w_res]; auto.
  - intros b; rewrite Hz; lia.
  - intros b; rewrite Hz; lia.
  - rewrite map_map, map_id; auto.
  - rewrite map_map, map_id; apply seq_NoDup.
  - intros f; rewrite map_map, map_id, in_seq; lia.
  - discriminate.
  - apply NoDup_nil.
  - intros f [].
  - intros f [].
  - discriminate.
  - intros f [].
Qed.

Lemma actor_lt n w R P a : winv n w R P -> In a (map snd (w_map w)) -> In a (seq 0 n).
Proof. intros H; apply Permutation_in, (wi_actors _ _ _ _ H). Qed.

(** Futures and results are unchanged: everything but the counters carries over. *)
Lemma winv_step n w w' R P : winv n w R P -> step w w' -> exists R' P', winv n w' R' P'.
Proof.
  intros H S. destruct S as [a b w Ha Hb | a f w Hf Hn Hc | a f l w Hc | w Hr | f l w Hr Hf Hl
                            | f a m1 m2 w Hr Hm | w Hfin | f rest l w Hfin Hall Hl].
  - (* append *)
    exists R, P. destruct H as [h1 h2 h3 h4 h5 h6 h7 h8 h9 h10 h11 h12 h13 h14 h15].
    set (w' := mkW _ _ _ _ _ _ _ _ _ _).
    assert (Hpl : forall x, places n w' x = places n w x + (if Nat.eq_dec b x then 1 else 0)).
    { intros x; unfold places.
      pose proof (sum_over_upd (fun a => occ (w_res w a) x) (fun a => occ (w_res w' a) x) a (seq 0 n)
                    (seq_NoDup _ _) (Permutation_in _ h3 Ha)) as U.
      cbn [w' w_res w_next] in *. change (content w') with (content w).
      assert (E : fset (w_res w) a (w_res w a ++ [b]) a = w_res w a ++ [b])
        by (unfold fset; rewrite Nat.eqb_refl; auto).
      rewrite E, occ_app in U. cbn [count_occ] in U.
      assert (E' : forall y, y <> a -> occ (fset (w_res w) a (w_res w a ++ [b]) y) x = occ (w_res w y) x).
      { intros y Hy; unfold fset. destruct (Nat.eqb_spec y a); [congruence|auto]. }
      specialize (U E'). destruct (Nat.eq_dec b x); lia. }
    constructor; cbn [w' w_map w_next w_fut w_copy w_run w_fin w_count w_made w_res]; auto.
    + intros x; rewrite Hpl; specialize (h1 x). destruct (Nat.eq_dec b x) as [<-|]; [|lia].
      destruct (Nat.eq_dec (places n w b) 0); [lia|]. exfalso; apply Hb, h2; lia.
    + intros x; rewrite Hpl, in_app_iff; cbn. destruct (Nat.eq_dec b x) as [<-|]; [auto|].
      intros Hx; left; apply h2; lia.
    + intros a' f l Hc; destruct (h7 a' f l Hc) as (X1 & X2 & t & Ht); repeat split; auto.
      unfold fset. destruct (Nat.eqb_spec a' a) as [->|]; [|eauto].
      rewrite Ht, <- app_assoc; eauto.
  - (* copy *)
    exists R, P. destruct H as [h1 h2 h3 h4 h5 h6 h7 h8 h9 h10 h11 h12 h13 h14 h15].
    constructor; cbn [w_map w_next w_fut w_copy w_run w_fin w_count w_made w_res]; auto.
    intros a' f' l Hc'. unfold fset in Hc'. destruct (Nat.eqb_spec a' a) as [->|]; [|now apply h7].
    injection Hc' as <- <-; repeat split; auto. exists []; now rewrite app_nil_r.
  - (* clear *)
    exists R, P. destruct H as [h1 h2 h3 h4 h5 h6 h7 h8 h9 h10 h11 h12 h13 h14 h15].
    destruct (h7 _ _ _ Hc) as (X1 & X2 & t & Ht).
    assert (Hflt : f < w_next w) by (apply h5; apply in_map_iff; exists (f, a); auto).
    set (w' := mkW _ _ _ _ _ _ _ _ _ _).
    assert (Hcont : forall g, g <> f -> content w' g = content w g).
    { intros g Hg; unfold content; cbn [w' w_fut]; unfold fset. destruct (Nat.eqb_spec g f); [congruence|auto]. }
    assert (Hcf : content w' f = l).
    { unfold content; cbn [w' w_fut]; unfold fset; rewrite Nat.eqb_refl; auto. }
    assert (Hc0 : content w f = []) by (unfold content; rewrite X2; auto).
    assert (Hpl : forall x, places n w' x + occ t x = places n w x).
    { intros x; unfold places.
      assert (Ha : In a (seq 0 n)).
      { apply (Permutation_in _ h3); apply in_map_iff; exists (f, a); auto. }
      pose proof (sum_over_upd (fun a => occ (w_res w a) x) (fun a => occ (w_res w' a) x) a (seq 0 n)
                    (seq_NoDup _ _) Ha) as U1.
      pose proof (sum_over_upd (fun g => occ (content w g) x) (fun g => occ (content w' g) x) f
                    (seq 0 (w_next w)) (seq_NoDup _ _) ltac:(apply in_seq; lia)) as U2.
      change (w_next w') with (w_next w).
      assert (E : w_res w' a = []) by (cbn [w' w_res]; unfold fset; rewrite Nat.eqb_refl; auto).
      cbn beta in U1, U2. rewrite E in U1. rewrite Hcf, Hc0 in U2. rewrite Ht, occ_app in U1. cbn [count_occ] in U1, U2.
      specialize (U1 ltac:(intros y Hy; cbn [w' w_res]; unfold fset; destruct (Nat.eqb_spec y a); congruence)).
      specialize (U2 ltac:(intros y Hy; now rewrite Hcont)). lia. }
    assert (Hsum : forall Q, (forall g, In g Q -> w_fut w g <> None) -> forall b,
              sum_over (fun g => occ (content w' g) b) Q = sum_over (fun g => occ (content w g) b) Q).
    { intros Q HQ b; apply sum_over_ext; intros g Hg; rewrite Hcont; auto.
      intros ->; now apply (HQ f). }
    assert (Hsome : forall g, w_fut w g <> None -> w_fut w' g <> None).
    { intros g Hg; cbn [w' w_fut]; unfold fset; destruct (g =? f); [discriminate|auto]. }
    constructor; cbn [w' w_map w_next w_copy w_run w_fin w_count w_made w_res]; auto.
    + intros b; specialize (Hpl b); specialize (h1 b); fold w'; lia.
    + intros b Hb; apply h2; specialize (Hpl b); fold w' in Hb; lia.
    + intros g Hg; unfold w'; cbn [w_fut]; unfold fset. destruct (Nat.eqb_spec g f) as [->|]; [lia|auto].
    + intros a' f' l' Hc'. unfold fset in Hc'. destruct (Nat.eqb_spec a' a) as [->|Hne]; [discriminate|].
      destruct (h7 _ _ _ Hc') as (Y1 & Y2 & t' & Ht').
      assert (Hff : f' <> f).
      { intros ->. apply Hne. clear - h4 X1 Y1.
        induction (w_map w) as [|[p q] m IH]; [destruct X1|].
        cbn in h4; apply NoDup_cons_iff in h4 as [Hp Hm].
        destruct X1 as [E1|X1], Y1 as [E2|Y1].
        - congruence.
        - injection E1 as -> ->. exfalso; apply Hp, in_map_iff. exists (f, a'); auto.
        - injection E2 as -> ->. exfalso; apply Hp, in_map_iff. exists (f, a); auto.
        - auto. }
      split; [auto|]; split.
      * unfold w'; cbn [w_fut]; unfold fset; destruct (Nat.eqb_spec f' f); [congruence|auto].
      * exists t'; unfold fset; destruct (Nat.eqb_spec a' a); [congruence|auto].
    + intros g Hg; destruct (h9 g Hg); split; auto; now apply Hsome.
    + intros g Hg; destruct (h13 g Hg); split; auto; now apply Hsome.
    + intros b; fold w'. rewrite h15, !Hsum; auto; intros g Hg; [now apply h13|now apply h9].
  - (* guard *)
    exists R, P. destruct H as [h1 h2 h3 h4 h5 h6 h7 h8 h9 h10 h11 h12 h13 h14 h15].
    constructor; cbn [w_map w_next w_fut w_copy w_run w_fin w_count w_made w_res]; auto.
    + intros f Hf Hm; specialize (h10 f Hf Hm); congruence.
    + intros f; destruct (w_active w); discriminate.
  - (* process *)
    exists (f :: R), P. destruct H as [h1 h2 h3 h4 h5 h6 h7 h8 h9 h10 h11 h12 h13 h14 h15].
    constructor; cbn [w_map w_next w_fut w_copy w_run w_fin w_count w_made w_res]; auto.
    + constructor; auto. intros Hin; specialize (h10 f Hin Hf); congruence.
    + intros g [<-|Hg]; auto. split; [auto|congruence].
    + intros g [<-|Hg] Hm; auto. specialize (h10 g Hg Hm); congruence.
    + intros g Hg; injection Hg as <-; now left.
    + intros b; rewrite occ_app, h15, sum_over_cons.
      change (content (mkW _ _ _ _ _ _ _ _ _ _)) with (content w).
      unfold content at 3; rewrite Hl; unfold content; cbn [w_fut]; lia.
  - (* pop *)
    exists R, P. destruct H as [h1 h2 h3 h4 h5 h6 h7 h8 h9 h10 h11 h12 h13 h14 h15].
    set (w' := mkW _ _ _ _ _ _ _ _ _ _).
    rewrite Hm in *. rewrite map_app in *. cbn [map fst snd] in *.
    assert (Hfresh : content w' (w_next w) = []) by (unfold content; cbn [w' w_fut]; rewrite h6; auto).
    assert (Hpl : forall b, places n w' b = places n w b).
    { intros b; unfold places. cbn [w' w_next w_res]. rewrite seq_S, sum_over_app, sum_over_cons. cbn [plus].
      fold w'. rewrite Hfresh. cbn. change (content w') with (content w). unfold sum_over; cbn. lia. }
    assert (Hk : forall g, In g (map fst (m1 ++ m2 ++ [(w_next w, a)])) <->
                           (In g (map fst m1) \/ In g (map fst m2)) \/ g = w_next w).
    { intros g; rewrite !map_app, !in_app_iff; cbn; intuition congruence. }
    assert (Hnd' := NoDup_remove _ _ _ h4). destruct Hnd' as [Hnd1 Hnd2].
    constructor; cbn [w' w_map w_next w_fut w_copy w_run w_fin w_count w_made w_res]; auto; try discriminate.
    + intros b; fold w'; now rewrite Hpl.
    + intros b; fold w'; rewrite Hpl; auto.
    + rewrite !map_app; cbn. eapply Permutation_trans; [|exact h3].
      apply Permutation_app_head, Permutation_sym, Permutation_cons_append.
    + rewrite !map_app; cbn. rewrite app_assoc.
      apply (Permutation_NoDup (Permutation_cons_append _ _)). constructor; auto.
      intros Hin. assert (w_next w < w_next w); [|lia].
      apply h5; rewrite in_app_iff in *; cbn; tauto.
    + intros g Hg; apply Hk in Hg as [Hg| ->]; [|lia].
      enough (g < w_next w) by lia. apply h5; rewrite in_app_iff; cbn; tauto.
    + intros g Hg; apply h6; lia.
    + intros a' f' l Hc; destruct (h7 _ _ _ Hc) as (X1 & X2 & X3). split; auto.
      rewrite !in_app_iff in *; cbn in *. destruct X1 as [X1|[X1|X1]]; auto.
      injection X1 as <- <-. exfalso. destruct (h9 f) as [_ Y]; [now apply h11|congruence].
    + intros g Hg; destruct (h9 g Hg); split; auto; lia.
    + intros g Hg Hin; apply Hk in Hin as [Hin| ->]; [|destruct (h9 _ Hg); lia].
      exfalso. specialize (h10 g Hg ltac:(rewrite in_app_iff; cbn; tauto)).
      assert (g = f) by congruence; subst g. rewrite in_app_iff in Hnd2; tauto.
    + intros g Hg; destruct (h13 g Hg); split; auto; lia.
    + destruct (w_fin w); auto. intros g Hg; specialize (h14 g Hg); lia.
  - (* finish *)
    exists R, []. destruct H as [h1 h2 h3 h4 h5 h6 h7 h8 h9 h10 h11 h12 h13 h14 h15].
    rewrite Hfin in *; subst P.
    constructor; cbn [w_map w_next w_fut w_copy w_run w_fin w_count w_made w_res]; auto.
  - (* final processing *)
    exists R, (P ++ [f]). destruct H as [h1 h2 h3 h4 h5 h6 h7 h8 h9 h10 h11 h12 h13 h14 h15].
    rewrite Hfin in *.
    constructor; cbn [w_map w_next w_fut w_copy w_run w_fin w_count w_made w_res]; auto.
    + rewrite <- app_assoc; auto.
    + intros g Hg; apply in_app_iff in Hg as [Hg|[<-|[]]]; auto.
      split; [apply h14; now left|congruence].
    + intros g Hg; apply h14; now right.
    + intros b; rewrite occ_app, h15, sum_over_app, sum_over_cons.
      change (content (mkW _ _ _ _ _ _ _ _ _ _)) with (content w).
      assert (E : content w f = l) by (unfold content; rewrite Hl; auto).
      change (sum_over _ []) with 0. unfold content in *; cbn [w_fut]. rewrite E. lia.
Qed.

Lemma reach_winv n w : reach n w -> exists R P, winv n w R P.
Proof.
  induction 1 as [|w w' Hr (R & P & IH) Hs]; [exists [], []; apply winv_init|].
  eapply winv_step; eauto.
Qed.

Lemma reach_count n w : reach n w ->
  (forall b, occ (w_count w) b <= 2) /\ (w_fin w = FNone -> forall b, occ (w_count w) b <= 1) /\
  (forall b, In b (w_count w) -> In b (w_made w)).
Proof.
  intros Hr; destruct (reach_winv n w Hr) as (R & P & H).
  assert (HR : forall b, sum_over (fun f => occ (content w f) b) R <= 1).
  { intros b; eapply Nat.le_trans; [|apply (wi_places _ _ _ _ H b)].
    unfold places. eapply Nat.le_trans; [|apply Nat.le_add_l].
    apply sum_over_incl; [apply (wi_R _ _ _ _ H)|].
    intros f Hf; apply in_seq; pose proof (wi_Rlt _ _ _ _ H f Hf); lia. }
  assert (HP : forall b, sum_over (fun f => occ (content w f) b) P <= 1).
  { intros b; eapply Nat.le_trans; [|apply (wi_places _ _ _ _ H b)].
    unfold places. eapply Nat.le_trans; [|apply Nat.le_add_l].
    apply sum_over_incl.
    - pose proof (wi_P _ _ _ _ H) as X. destruct (w_fin w); [subst; constructor|].
      now apply NoDup_app_l in X.
    - intros f Hf; apply in_seq; pose proof (wi_Plt _ _ _ _ H f Hf); lia. }
  split; [|split].
  - intros b; rewrite (wi_count _ _ _ _ H); specialize (HR b); specialize (HP b); lia.
  - intros Hfin b; rewrite (wi_count _ _ _ _ H). pose proof (wi_P _ _ _ _ H) as X; rewrite Hfin in X; subst P.
    specialize (HR b). change (sum_over (fun f => occ (content w f) b) []) with 0. lia.
  - intros b Hb. apply (wi_made _ _ _ _ H).
    apply (count_occ_In Nat.eq_dec) in Hb. rewrite (wi_count _ _ _ _ H) in Hb.
    unfold places. enough (0 < sum_over (fun f => occ (content w f) b) (seq 0 (w_next w))) by lia.
    assert (Hex : exists f, f < w_next w /\ 0 < occ (content w f) b).
    { destruct (Nat.eq_dec (sum_over (fun f => occ (content w f) b) R) 0).
      - destruct (sum_over_pos (fun f => occ (content w f) b) P) as (f & Hf & Ho); [lia|].
        exists f; split; auto; now apply (wi_Plt _ _ _ _ H).
      - destruct (sum_over_pos (fun f => occ (content w f) b) R) as (f & Hf & Ho); [lia|].
        exists f; split; auto; now apply (wi_Rlt _ _ _ _ H). }
    destruct Hex as (f & Hf & Ho).
    pose proof (sum_over_ge (fun f => occ (content w f) b) (seq 0 (w_next w)) f ltac:(apply in_seq; lia)).
    cbn beta in *; lia.
Qed.

(** ** No loss when stashing never overlaps with fetching *)
Definition waiting (n : nat) (w : world) (b : nat) : Prop :=
  (exists a, a < n /\ In b (w_res w a)) \/
  (exists f l, In f (map fst (w_map w)) /\ w_run w <> RPop f /\ w_fut w f = Some l /\ In b l).

Lemma reach_atomic_reach n w : reach_atomic n w -> reach n w.
Proof. induction 1; econstructor; eauto. Qed.

Record ainv (n : nat) (w : world) : Prop := {
  ai_copy : forall a f l, w_copy w a = Some (f, l) -> w_res w a = l;
  ai_keep : forall b, In b (w_made w) -> In b (w_count w) \/ waiting n w b }.

Lemma atomic_ainv n w : reach_atomic n w -> ainv n w.
Proof.
  induction 1 as [|w w' Hr IH Hs Hat].
  { constructor; cbn; [discriminate|tauto]. }
  pose proof (reach_atomic_reach _ _ Hr) as Hr'.
  destruct (reach_winv _ _ Hr') as (R & P & HW). destruct IH as [Ic Ik].
  destruct Hs as [a b w Ha Hb | a f w Hf Hn Hc | a f l w Hc | w Hr0 | f l w Hr0 Hf Hl
                            | f a m1 m2 w Hr0 Hm | w Hfin | f rest l w Hfin Hall Hl];
    cbn [w_copy w_res] in Hat.
  - constructor; cbn [w_copy w_res w_made w_count w_map w_run w_fut].
    + intros a' f l Hc. specialize (Hat a' ltac:(congruence)).
      destruct Hat as [E|E]; [|congruence]. rewrite E; eauto.
    + intros x Hx. apply in_app_iff in Hx as [Hx|[<-|[]]].
      * destruct (Ik x Hx) as [|[(a' & Ha' & Hi)|X]]; auto; right; [left|right; exact X].
        exists a'; split; auto; unfold fset; cbn. destruct (Nat.eqb_spec a' a) as [->|]; auto.
        apply in_app_iff; auto.
      * right; left; exists a; split.
        -- pose proof (actor_lt _ _ _ _ _ HW Ha) as X; apply in_seq in X; lia.
        -- cbn; unfold fset; rewrite Nat.eqb_refl, in_app_iff; right; now left.
  - constructor; cbn [w_copy w_res w_made w_count w_map w_run w_fut].
    + intros a' f' l Hc'. unfold fset in Hc'. destruct (Nat.eqb_spec a' a) as [->|]; [|eauto].
      now injection Hc' as <- <-.
    + intros x Hx; destruct (Ik x Hx) as [|[X|X]]; auto; right; [left|right]; exact X.
  - destruct (wi_copy _ _ _ _ HW _ _ _ Hc) as (X1 & X2 & _).
    pose proof (Ic _ _ _ Hc) as Hres.
    constructor; cbn [w_copy w_res w_made w_count w_map w_run w_fut].
    + intros a' f' l' Hc'. unfold fset in *. destruct (Nat.eqb_spec a' a) as [->|]; [discriminate|eauto].
    + intros x Hx; destruct (Ik x Hx) as [|[(a' & Ha' & Hi)|(g & l' & G1 & G2 & G3 & G4)]]; auto; right.
      * destruct (Nat.eq_dec a' a) as [->|Hne].
        -- right; exists f, l; cbn. split; [apply in_map_iff; exists (f, a); auto|]. split; [|split].
           ++ intros Hp. destruct (wi_Rlt _ _ _ _ HW f (wi_run _ _ _ _ HW f Hp)); congruence.
           ++ unfold fset; rewrite Nat.eqb_refl; auto.
           ++ now rewrite <- Hres.
        -- left; exists a'; split; auto; cbn; unfold fset. destruct (Nat.eqb_spec a' a); [congruence|auto].
      * right; exists g, l'; cbn; repeat split; auto. unfold fset.
        destruct (Nat.eqb_spec g f) as [->|]; [congruence|auto].
  - constructor; cbn [w_copy w_res w_made w_count w_map w_run w_fut]; auto.
    intros x Hx; destruct (Ik x Hx) as [|[X|(g & l' & G1 & G2 & G3 & G4)]]; auto; right; [left; exact X|right].
    exists g, l'; cbn; repeat split; auto. destruct (w_active w); discriminate.
  - constructor; cbn [w_copy w_res w_made w_count w_map w_run w_fut]; auto.
    intros x Hx; destruct (Ik x Hx) as [X|[X|(g & l' & G1 & G2 & G3 & G4)]].
    + left; apply in_app_iff; auto.
    + right; left; exact X.
    + destruct (Nat.eq_dec g f) as [->|Hne].
      * left; apply in_app_iff; right; congruence.
      * right; right; exists g, l'; cbn; repeat split; auto; congruence.
  - constructor; cbn [w_copy w_res w_made w_count w_map w_run w_fut]; auto.
    intros x Hx; destruct (Ik x Hx) as [X|[X|(g & l' & G1 & G2 & G3 & G4)]]; auto; right; [left; exact X|right].
    exists g, l'; cbn. split; [|split; [discriminate|auto]].
    rewrite Hm in G1. rewrite !map_app, !in_app_iff in *; cbn in *. destruct G1 as [G1|[<-|G1]]; auto.
  - constructor; cbn [w_copy w_res w_made w_count w_map w_run w_fut]; auto.
  - constructor; cbn [w_copy w_res w_made w_count w_map w_run w_fut]; auto.
    intros x Hx; destruct (Ik x Hx) as [X|[X|X]]; [left; apply in_app_iff; auto|right; left; exact X|right; right; exact X].
Qed.

(** ** Batches that are nowhere stay uncounted *)
Inductive steps : world -> world -> Prop :=
  | steps_refl w : steps w w
  | steps_next w w' w'' : steps w w' -> step w' w'' -> steps w w''.

Definition nowhere (b : nat) (w : world) : Prop :=
  (forall a, ~ In b (w_res w a)) /\
  (forall a f l, w_copy w a = Some (f, l) -> ~ In b l) /\
  (forall f l, w_fut w f = Some l -> ~ In b l) /\ In b (w_made w) /\ ~ In b (w_count w).

Lemma nowhere_step b w w' : nowhere b w -> step w w' -> nowhere b w'.
Proof.
  intros (N1 & N2 & N3 & N4 & N5) S.
  destruct S as [a b' w Ha Hb | a f w Hf Hn Hc | a f l w Hc | w Hr | f l w Hr Hf Hl
                | f a m1 m2 w Hr Hm | w Hfin | f rest l w Hfin Hall Hl];
    unfold nowhere; cbn [w_res w_copy w_fut w_made w_count]; repeat split; auto; unfold fset.
  - intros x; destruct (x =? a); auto. rewrite in_app_iff; intros [H|[->|[]]]; [now apply (N1 a)|auto].
  - apply in_app_iff; auto.
  - intros x g l. destruct (x =? a); [|apply N2]. intros H; injection H as _ <-; apply N1.
  - intros x; destruct (x =? a); auto.
  - intros x g l'. destruct (x =? a); [discriminate|apply N2].
  - intros g l'. destruct (g =? f); [|apply N3]. intros H; injection H as <-. now apply (N2 a f).
  - rewrite in_app_iff; intros [H|H]; auto. now apply (N3 f l).
  - rewrite in_app_iff; intros [H|H]; auto. now apply (N3 f l).
Qed.

Lemma nowhere_forever b w w' : steps w w' -> nowhere b w -> ~ In b (w_count w').
Proof.
  intros S H. enough (nowhere b w') as (_ & _ & _ & _ & X) by auto.
  induction S as [|w w1 w2 S IH H1]; auto. exact (nowhere_step _ _ _ (IH H) H1).
Qed.
