(** Proofs about kinematic chains: caches never disagree with the chain. *)
From Coq Require Import List Arith Bool Lia.
From Verif Require Import Base BaseLemmas Kin_Model Kin_Spec.
Import ListNotations.

Section Proofs.
Variables (T : Type) (mul : T -> T -> T) (inv : T -> T) (one : T).
Variable root : nat -> bool.
Notation frames := (frames T).
Notation frame := (frame T).
Notation updated := (updated T root).
Notation world := (world T).
Notation global := (global T mul one root).
Notation depth := (depth T).
Notation upd := (upd T).

Lemma upd_eq : forall (s : frames) x f, upd s x f x = f.
Proof. intros. unfold Kin_Model.upd. rewrite Nat.eqb_refl. reflexivity. Qed.
Lemma upd_ne : forall (s : frames) x f y, y <> x -> upd s x f y = s y.
Proof. intros s x f y Hy. unfold Kin_Model.upd. rewrite (proj2 (Nat.eqb_neq _ _) Hy). reflexivity. Qed.

(** ** Worlds *)
Lemma depth_fun : forall w x n, depth w x n -> forall m, depth w x m -> n = m.
Proof.
  intros w x n H. induction H as [x Hx|x b n Hx Hd IH]; intros m Hm; inversion Hm as [y E1 E2 E3|y b' m' E1 E2 E3 E4]; subst; try congruence.
  rewrite E1 in Hx. injection Hx as ->. f_equal. apply IH. exact E2.
Qed.
Lemma global_fun : forall w x t, global w x t -> forall u, global w x u -> t = u.
Proof.
  intros w x t H. induction H as [x Hx|x Hx Hb|x b t Hx Hb Hg IH]; intros u Hu;
    inversion Hu as [y E1 E2 E3|y E1 E2 E3|y b' u' E1 E2 E3 E4 E5]; subst; try congruence.
  rewrite E2 in Hb. injection Hb as ->. f_equal. apply IH. exact E3.
Qed.
Lemma global_total : forall w x n, depth w x n -> exists t, global w x t.
Proof.
  intros w x n H. induction H as [x Hx|x b n Hx Hd [t IH]]; destruct (root x) eqn:E.
  - exists one. apply G_root. exact E.
  - exists (place _ w x). apply G_top; assumption.
  - exists one. apply G_root. exact E.
  - exists (mul t (place _ w x)). eapply G_step; eassumption.
Qed.
(** Chains that pass a frame *)
Inductive passes (w : world) (x : nat) : nat -> Prop :=
| P_here : passes w x x
| P_step : forall y z, on _ w y = Some z -> passes w x z -> passes w x y.
Lemma passes_dec : forall w x y n, depth w y n -> passes w x y \/ (y <> x /\ forall z, on _ w y = Some z -> ~ passes w x z).
Proof.
  intros w x y n H. induction H as [y Hy|y b n Hy Hd IH]; destruct (Nat.eq_dec y x) as [->|Hne]; try (left; apply P_here).
  - right. split; [exact Hne|]. intros z Hz. congruence.
  - destruct IH as [IH|[IH1 IH2]]; [left; eapply P_step; eassumption|]. right. split; [exact Hne|].
    intros z Hz. rewrite Hy in Hz. injection Hz as <-. intros Hp. inversion Hp as [|y' z' E1 E2]; subst; [congruence|]. exact (IH2 _ E1 E2).
Qed.
Lemma passes_decide : forall w x y n, depth w y n -> passes w x y \/ ~ passes w x y.
Proof.
  intros w x y n H. destruct (passes_dec w x y n H) as [Hp|[H1 H2]]; [left; exact Hp|]. right. intros Hp.
  inversion Hp as [|y' z' E1 E2]; subst; [congruence|]. exact (H2 _ E1 E2).
Qed.
(** Changes at a frame do not concern chains that do not pass it *)
Lemma global_change : forall w w' x, (forall y, y <> x -> on _ w y = on _ w' y /\ place _ w y = place _ w' y) ->
  forall y t, global w y t -> ~ passes w' x y -> global w' y t.
Proof.
  intros w w' x Hw y t H. induction H as [y Hy|y Hy Hb|y b t Hy Hb Hg IH]; intros Hp.
  - apply G_root. exact Hy.
  - assert (Hne : y <> x) by (intros ->; apply Hp; apply P_here). destruct (Hw y Hne) as [E1 E2]. rewrite E2. apply G_top; [exact Hy|congruence].
  - assert (Hne : y <> x) by (intros ->; apply Hp; apply P_here). destruct (Hw y Hne) as [E1 E2]. rewrite E2.
    apply (G_step _ _ _ _ w' y b t); [exact Hy|congruence|]. apply IH. intros Hb'. apply Hp. eapply P_step; [|exact Hb']. congruence.
Qed.

(** ** Clearing caches *)
Definition cleared (s s' : frames) : Prop := forall y, s' y = s y \/ s' y = without_cache T (s y).
Lemma cleared_refl : forall s, cleared s s.
Proof. intros s y. left. reflexivity. Qed.
Lemma cleared_trans : forall s1 s2 s3, cleared s1 s2 -> cleared s2 s3 -> cleared s1 s3.
Proof.
  intros s1 s2 s3 H1 H2 y. destruct (H2 y) as [E|E]; rewrite E; destruct (H1 y) as [E'|E']; rewrite E'; auto.
Qed.
Lemma cleared_links : forall s s' y, cleared s s' -> links _ (s' y) = links _ (s y).
Proof. intros s s' y H. destruct (H y) as [E|E]; rewrite E; reflexivity. Qed.
Definition empty (f : frame) : Prop := f = without_cache T f.
Lemma cleared_empty : forall s s' y, cleared s s' -> empty (s y) -> empty (s' y).
Proof. intros s s' y H E. destruct (H y) as [E'|E']; unfold empty in *; rewrite E'; [exact E|reflexivity]. Qed.
(** Frames linked below a frame *)
Inductive below (s : frames) (x : nat) : nat -> Prop :=
| B_here : below s x x
| B_step : forall y z, In z (links _ (s y)) -> below s x y -> below s x z.
Lemma below_trans : forall s x y, below s x y -> forall z, below s y z -> below s x z.
Proof. intros s x y H z Hz. induction Hz as [|a b Hin Hb IH]; [exact H|]. eapply B_step; eassumption. Qed.
Lemma below_cleared : forall s s' x y, cleared s s' -> below s x y -> below s' x y.
Proof. intros s s' x y H Hb. induction Hb as [|a b Hin Hb IH]; [apply B_here|]. eapply B_step; [|exact IH]. rewrite (cleared_links s s' a H). exact Hin. Qed.
Lemma below_front : forall s x y, below s x y -> y = x \/ exists z, In z (links _ (s x)) /\ below s z y.
Proof.
  intros s x y H. induction H as [|a b Hin Hb IH]; [left; reflexivity|]. right. destruct IH as [->|[z [Hz Hbz]]].
  - exists b. split; [exact Hin|apply B_here].
  - exists z. split; [exact Hz|]. eapply B_step; eassumption.
Qed.

(** Links follow some attachment that is shallow *)
Definition along (w : world) (s : frames) : Prop := forall y z, In z (links _ (s y)) -> on _ w z = Some y /\ root z = false.
Lemma along_cleared : forall w s s', cleared s s' -> along w s -> along w s'.
Proof. intros w s s' H Ha y z Hz. apply Ha. rewrite (cleared_links s s' y H) in Hz. exact Hz. Qed.

Lemma updated_spec : forall w limit, shallow _ limit w -> forall n x d s, depth w x d -> limit <= n + d -> d < limit -> root x = false -> along w s ->
  exists s', updated n s x = Ok s' /\ cleared s s' /\ forall y, below s x y -> empty (s' y).
Proof.
  intros w limit Hsh n. induction n as [|n IH]; intros x d s Hd Hn Hdl Hr Ha.
  - lia.
  - cbn [Kin_Model.updated]. rewrite Hr. set (s1 := upd s x (without_cache T (s x))).
    assert (Hc1 : cleared s s1).
    { intros y. unfold s1. destruct (Nat.eq_dec y x) as [->|Hy]; [right; apply upd_eq|left; apply upd_ne; exact Hy]. }
    assert (Hmem : forall l, (forall z, In z l -> In z (links _ (s x))) -> forall s0, cleared s s0 ->
              exists s', each T (updated n) l s0 = Ok s' /\ cleared s0 s' /\ forall z y, In z l -> below s z y -> empty (s' y)).
    { intros l. induction l as [|z l IHl]; intros Hl s0 H0.
      - exists s0. split; [reflexivity|]. split; [apply cleared_refl|]. intros z y [].
      - assert (Hz : In z (links _ (s x))) by (apply Hl; left; reflexivity). destruct (Ha x z Hz) as [Hon Hrz].
        destruct (Hsh z) as [m [Hm Hdm]]. assert (m = S d) by (eapply depth_fun; [exact Hdm|eapply D_step; eassumption]). subst m.
        destruct (IH z (S d) s0 Hdm) as [s2 [E2 [C2 B2]]]; [lia|exact Hm|exact Hrz|eapply along_cleared; eassumption|].
        destruct (IHl (fun a Hin => Hl a (or_intror Hin)) s2 (cleared_trans _ _ _ H0 C2)) as [s3 [E3 [C3 B3]]].
        exists s3. cbn [each]. rewrite E2. cbn [bind]. split; [exact E3|]. split; [eapply cleared_trans; eassumption|].
        intros a y [<-|Hin] Hb; [|eapply B3; eassumption]. eapply cleared_empty; [exact C3|]. apply B2. eapply below_cleared; eassumption. }
    destruct (Hmem (links _ (s1 x))) with (s0 := s1) as [s' [E [C B]]].
    { intros z Hz. rewrite (cleared_links s s1 x Hc1) in Hz. exact Hz. } { exact Hc1. }
    exists s'. split; [exact E|]. split; [eapply cleared_trans; eassumption|].
    intros y Hy. destruct (below_front _ _ _ Hy) as [->|[z [Hz Hb]]].
    + eapply cleared_empty; [exact C|]. unfold s1. rewrite upd_eq. reflexivity.
    + eapply B; [|exact Hb]. rewrite (cleared_links s s1 x Hc1). exact Hz.
Qed.

(** ** Coherence of frames with a world *)
Record fits (w : world) (y : nat) (f : frame) : Prop := {
  fit_pose : pose _ f = place _ w y;
  fit_base : base _ f = on _ w y;
  fit_own : forall t, forwards _ f = Some (Own _ t) -> global w y t;
  fit_the : forwards _ f = Some (ThePose _) -> global w y (place _ w y);
  fit_back : forall t, backwards _ f = Some t -> exists g, global w y g /\ t = inv g
}.
Record coherent (w : world) (s : frames) : Prop := {
  co_fits : forall y, fits w y (s y);
  co_links : forall b x, In x (links _ (s b)) <-> on _ w x = Some b;
  co_roots : forall x, root x = true -> on _ w x = None
}.
Lemma empty_fits : forall w y f, empty f -> pose _ f = place _ w y -> base _ f = on _ w y -> fits w y f.
Proof. intros w y f He Hp Hb. rewrite He. split; cbn; try discriminate; assumption. Qed.
(** Frames keep fitting a world that changed at [x] if chains that pass it have empty caches *)
Lemma fits_change : forall w w' x y f n, (forall y, y <> x -> on _ w y = on _ w' y /\ place _ w y = place _ w' y) -> depth w' y n ->
  fits w y f -> (passes w' x y -> False) -> fits w' y f.
Proof.
  intros w w' x y f n Hw Hd [F1 F2 F3 F4 F5] Hp. assert (Hne : y <> x) by (intros ->; apply Hp; apply P_here).
  destruct (Hw y Hne) as [E1 E2]. split; try congruence.
  - intros t Ht. eapply global_change; eauto.
  - intros Ht. rewrite <- E2. eapply global_change; eauto.
  - intros t Ht. destruct (F5 t Ht) as [g [G1 G2]]. exists g. split; [|exact G2]. eapply global_change; eauto.
Qed.

(** ** Reading *)
Definition alike (s s' : frames) : Prop := forall y, links _ (s' y) = links _ (s y).
Lemma coherent_alike : forall w s s', coherent w s -> alike s s' -> (forall y, fits w y (s' y)) -> coherent w s'.
Proof. intros w s s' [C1 C2 C3] Ha Hf. split; [exact Hf| |exact C3]. intros b x. rewrite Ha. apply C2. Qed.
Lemma coherent_upd : forall w s x f, coherent w s -> links _ f = links _ (s x) -> fits w x f -> coherent w (upd s x f).
Proof.
  intros w s x f Hc Hl Hf. apply (coherent_alike w s); [exact Hc| |].
  - intros y. destruct (Nat.eq_dec y x) as [->|Hy]; [rewrite upd_eq; exact Hl|rewrite upd_ne by exact Hy; reflexivity].
  - intros y. destruct (Nat.eq_dec y x) as [->|Hy]; [rewrite upd_eq; exact Hf|rewrite upd_ne by exact Hy; apply (co_fits _ _ Hc)].
Qed.
Lemma forwards_spec : forall w n x d s, depth w x d -> d < n -> coherent w s ->
  exists s' t, forwards_of T mul one root n s x = Ok (s', t) /\ global w x t /\ coherent w s'.
Proof.
  intros w n. induction n as [|n IH]; intros x d s Hd Hn Hc; [lia|]. cbn [forwards_of].
  destruct (root x) eqn:Hr; [exists s, one; split; [reflexivity|]; split; [apply G_root; exact Hr|exact Hc]|].
  destruct (co_fits _ _ Hc x) as [F1 F2 F3 F4 F5]. destruct (forwards _ (s x)) as [[t|]|] eqn:Ef.
  - exists s, t. split; [reflexivity|]. split; [apply F3; reflexivity|exact Hc].
  - exists s, (pose _ (s x)). split; [reflexivity|]. split; [rewrite F1; apply F4; reflexivity|exact Hc].
  - rewrite F2. inversion Hd as [y E1 E2 E3|y b m E1 E2 E3 E4]; subst.
    + rewrite E1. eexists _, _. split; [reflexivity|]. assert (G : global w x (place _ w x)) by (apply G_top; assumption).
      split; [rewrite F1; exact G|]. apply coherent_upd; [exact Hc|reflexivity|]. split; cbn; try assumption; try discriminate. intros _. exact G.
    + rewrite E1. destruct (IH b m s E2) as [s1 [t [E [G1 C1]]]]; [lia|exact Hc|]. rewrite E. cbn [bind].
      destruct (co_fits _ _ C1 x) as [K1 K2 K3 K4 K5].
      assert (G : global w x (mul t (pose _ (s1 x)))) by (rewrite K1; eapply G_step; eassumption).
      eexists _, _. split; [reflexivity|]. split; [exact G|]. apply coherent_upd; [exact C1|reflexivity|].
      split; cbn; try assumption; try discriminate. intros u Hu. injection Hu as <-. exact G.
Qed.
Lemma backwards_spec : forall w limit x s, shallow _ limit w -> root x = false -> coherent w s ->
  exists s' t, backwards_of T mul inv one root limit s x = Ok (s', inv t) /\ global w x t /\ coherent w s'.
Proof.
  intros w limit x s Hs Hr Hc. unfold backwards_of. destruct (co_fits _ _ Hc x) as [F1 F2 F3 F4 F5].
  destruct (backwards _ (s x)) as [t|] eqn:Eb.
  - destruct (F5 t eq_refl) as [g [G ->]]. exists s, g. split; [reflexivity|]. split; assumption.
  - destruct (Hs x) as [d [Hd1 Hd2]]. destruct (forwards_spec w limit x d s Hd2 Hd1 Hc) as [s1 [t [E [G C]]]].
    rewrite E. cbn [bind]. eexists _, t. split; [reflexivity|]. split; [exact G|]. apply coherent_upd; [exact C|reflexivity|].
    destruct (co_fits _ _ C x) as [K1 K2 K3 K4 K5]. split; cbn; try assumption. intros u Hu. injection Hu as <-. exists t. split; [exact G|reflexivity].
Qed.

(** ** Moving *)
Lemma passes_below : forall w s x y, (forall b z, z <> x -> on _ w z = Some b -> In z (links _ (s b))) -> passes w x y -> below s x y.
Proof.
  intros w s x y Hl H. induction H as [|y z Hy Hp IH]; [apply B_here|]. destruct (Nat.eq_dec y x) as [->|Hne]; [apply B_here|].
  eapply B_step; [|exact IH]. apply Hl; assumption.
Qed.
(** The frames fit a new world once the caches at and below the changed frame are cleared *)
Lemma fits_updated : forall w w' limit x s s', shallow _ limit w' -> (forall y, y <> x -> on _ w y = on _ w' y /\ place _ w y = place _ w' y) ->
  (forall y, y <> x -> fits w y (s y)) -> pose _ (s x) = place _ w' x -> base _ (s x) = on _ w' x ->
  (forall b z, z <> x -> on _ w' z = Some b -> In z (links _ (s b))) ->
  cleared s s' -> (forall y, below s x y -> empty (s' y)) -> forall y, fits w' y (s' y).
Proof.
  intros w w' limit x s s' Hsh Hw Hf Hp Hb Hl Hc He y. destruct (Hsh y) as [n [_ Hd]].
  assert (Hpose : pose _ (s' y) = pose _ (s y) /\ base _ (s' y) = base _ (s y)) by (destruct (Hc y) as [E|E]; rewrite E; split; reflexivity).
  destruct Hpose as [P1 P2].
  assert (Hy : pose _ (s y) = place _ w' y /\ base _ (s y) = on _ w' y).
  { destruct (Nat.eq_dec y x) as [->|Hne]; [split; assumption|]. destruct (Hf y Hne) as [F1 F2 _ _ _]. destruct (Hw y Hne) as [E1 E2]. split; congruence. }
  destruct Hy as [Y1 Y2].
  destruct (passes_decide w' x y n Hd) as [Hpass|Hpass].
  - apply empty_fits; [|congruence|congruence]. apply He. eapply passes_below; eassumption.
  - assert (Hne : y <> x) by (intros ->; apply Hpass; apply P_here). destruct (Hc y) as [E|E].
    + rewrite E. eapply fits_change; [exact Hw|exact Hd|apply Hf; exact Hne|exact Hpass].
    + apply empty_fits; [rewrite E; reflexivity|congruence|congruence].
Qed.

Lemma move_spec : forall w limit x f s, shallow _ limit w -> root x = false -> coherent w s ->
  exists s', move T root limit s x f = Ok s' /\ coherent (mkWorld _ (set (place _ w) x (f (place _ w x))) (on _ w)) s'.
Proof.
  intros w limit x f s Hsh Hr Hc. unfold move. set (w' := mkWorld _ (set (place _ w) x (f (place _ w x))) (on _ w)).
  set (s1 := upd s x (with_pose T (f (pose _ (s x))) (s x))).
  assert (Hsh' : shallow _ limit w').
  { intros y. destruct (Hsh y) as [n [Hn Hd]]. exists n. split; [exact Hn|]. clear -Hd. induction Hd as [y Hy|y b n Hy Hd IH]; [apply D_top; exact Hy|eapply D_step; [exact Hy|exact IH]]. }
  assert (Hl1 : forall y, links _ (s1 y) = links _ (s y)).
  { intros y. unfold s1. destruct (Nat.eq_dec y x) as [->|Hy]; [rewrite upd_eq; reflexivity|rewrite upd_ne by exact Hy; reflexivity]. }
  assert (Hal : along w' s1).
  { intros y z Hz. rewrite Hl1 in Hz. apply (co_links _ _ Hc) in Hz. split; [exact Hz|]. destruct (root z) eqn:E; [|reflexivity].
    rewrite (co_roots _ _ Hc z E) in Hz. discriminate. }
  destruct (Hsh' x) as [d [Hd1 Hd2]]. destruct (updated_spec w' limit Hsh' limit x d s1 Hd2) as [s' [E [C B]]]; [lia|exact Hd1|exact Hr|exact Hal|].
  exists s'. split; [exact E|]. split.
  - apply (fits_updated w w' limit x s1 s'); try assumption.
    + intros y Hy. cbn [w' on place]. split; [reflexivity|]. unfold set. rewrite (proj2 (Nat.eqb_neq _ _) Hy). reflexivity.
    + intros y Hy. unfold s1. rewrite upd_ne by exact Hy. apply (co_fits _ _ Hc).
    + unfold s1. rewrite upd_eq. cbn [w' place with_pose pose]. unfold set. rewrite Nat.eqb_refl. rewrite (fit_pose _ _ _ (co_fits _ _ Hc x)). reflexivity.
    + unfold s1. rewrite upd_eq. cbn [w' on with_pose base]. apply (fit_base _ _ _ (co_fits _ _ Hc x)).
    + intros b z _ Hz. rewrite Hl1. apply (co_links _ _ Hc). exact Hz.
  - intros b z. rewrite (cleared_links _ _ _ C), Hl1. apply (co_links _ _ Hc).
  - apply (co_roots _ _ Hc).
Qed.

(** ** Attaching *)
Lemma set_eq : forall A (f : nat -> A) x a, set f x a x = a.
Proof. intros. unfold set. rewrite Nat.eqb_refl. reflexivity. Qed.
Lemma set_ne : forall A (f : nat -> A) x a y, y <> x -> set f x a y = f y.
Proof. intros A f x a y Hy. unfold set. rewrite (proj2 (Nat.eqb_neq _ _) Hy). reflexivity. Qed.
Definition attach (w : world) (x : nat) (b : option nat) : world := mkWorld _ (place _ w) (set (on _ w) x b).
Lemma attach_other : forall w x b y, y <> x -> on _ w y = on _ (attach w x b) y /\ place _ w y = place _ (attach w x b) y.
Proof. intros w x b y Hy. cbn [attach on place]. rewrite set_ne by exact Hy. split; reflexivity. Qed.
Lemma detach_shallow : forall w limit x, shallow _ limit w -> shallow _ limit (attach w x None).
Proof.
  intros w limit x Hsh y. destruct (Hsh y) as [n [Hn Hd]]. assert (H : exists m, m <= n /\ depth (attach w x None) y m).
  { clear Hn. induction Hd as [y Hy|y b n Hy Hd [m [Hm IH]]].
    - exists 0. split; [lia|]. apply D_top. cbn [attach on]. unfold set. destruct (y =? x); [reflexivity|exact Hy].
    - destruct (Nat.eq_dec y x) as [->|Hne].
      + exists 0. split; [lia|]. apply D_top. cbn [attach on]. apply set_eq.
      + exists (S m). split; [lia|]. apply (D_step _ _ y b m); [cbn [attach on]; rewrite set_ne by exact Hne; exact Hy|exact IH]. }
  destruct H as [m [Hm H]]. exists m. split; [lia|exact H].
Qed.
Lemma existsb_In : forall x l, existsb (Nat.eqb x) l = true <-> In x l.
Proof.
  intros x l. rewrite existsb_exists. split.
  - intros [y [Hy E]]. apply Nat.eqb_eq in E. subst y. exact Hy.
  - intros H. exists x. split; [exact H|apply Nat.eqb_refl].
Qed.
Lemma existsb_not_In : forall x l, existsb (Nat.eqb x) l = false <-> ~ In x l.
Proof. intros x l. rewrite <- existsb_In. destruct (existsb (Nat.eqb x) l); split; congruence. Qed.
Lemma In_insert : forall x z l, In z (insert x l) <-> z = x \/ In z l.
Proof.
  intros x z l. unfold insert. destruct (existsb (Nat.eqb x) l) eqn:E; cbn [In].
  - apply existsb_In in E. split; [tauto|]. intros [->|H]; assumption.
  - split; intros [H|H]; auto.
Qed.
Lemma In_remove : forall x z l, In z (remove x l) <-> z <> x /\ In z l.
Proof.
  intros x z l. unfold remove. rewrite filter_In, negb_true_iff, Nat.eqb_neq. tauto.
Qed.
Lemma same_base_eq : forall a b, same_base a b = true <-> a = b.
Proof.
  intros [a|] [b|]; cbn [same_base]; try rewrite Nat.eqb_eq; split; intros H; try congruence; try discriminate. 
Qed.
Lemma global_ext : forall w w', (forall y, on _ w y = on _ w' y /\ place _ w y = place _ w' y) -> forall y t, global w y t -> global w' y t.
Proof.
  intros w w' Hw y t H. induction H as [y Hy|y Hy Hb|y b t Hy Hb Hg IH]; destruct (Hw y) as [E1 E2].
  - apply G_root. exact Hy.
  - rewrite E2. apply G_top; congruence.
  - rewrite E2. apply (G_step _ _ _ _ w' y b t); [exact Hy|congruence|exact IH].
Qed.
Lemma fits_ext : forall w w' y f, (forall y, on _ w y = on _ w' y /\ place _ w y = place _ w' y) -> fits w y f -> fits w' y f.
Proof.
  intros w w' y f Hw [F1 F2 F3 F4 F5]. destruct (Hw y) as [E1 E2]. split; try congruence.
  - intros t Ht. eapply global_ext; eauto.
  - intros Ht. rewrite <- E2. eapply global_ext; eauto.
  - intros t Ht. destruct (F5 t Ht) as [g [G1 G2]]. exists g. split; [eapply global_ext; eauto|exact G2].
Qed.
Lemma fits_links : forall w y f l, fits w y f -> fits w y (with_links T l f).
Proof. intros w y f l [F1 F2 F3 F4 F5]. split; assumption. Qed.

(** Assigning another base and clearing caches, while links follow some shallow attachment [w2] *)
Lemma rebase : forall w w2 limit x b s, shallow _ limit (attach w x b) -> shallow _ limit w2 -> root x = false ->
  (forall y, fits w y (s y)) -> along w2 s -> (forall c z, z <> x -> on _ w z = Some c -> In z (links _ (s c))) ->
  exists s', updated limit (upd s x (with_base T b (s x))) x = Ok s' /\ (forall y, fits (attach w x b) y (s' y)) /\ alike s s'.
Proof.
  intros w w2 limit x b s Hsh Hsh2 Hr Hf Ha Hl. set (s1 := upd s x (with_base T b (s x))).
  assert (Hl1 : forall y, links _ (s1 y) = links _ (s y)).
  { intros y. unfold s1. destruct (Nat.eq_dec y x) as [->|Hy]; [rewrite upd_eq; reflexivity|rewrite upd_ne by exact Hy; reflexivity]. }
  assert (Ha1 : along w2 s1) by (intros y z Hz; apply Ha; rewrite Hl1 in Hz; exact Hz).
  destruct (Hsh2 x) as [d [Hd1 Hd2]]. destruct (updated_spec w2 limit Hsh2 limit x d s1 Hd2) as [s' [E [C B]]]; [lia|exact Hd1|exact Hr|exact Ha1|].
  exists s'. split; [exact E|]. split.
  - apply (fits_updated w (attach w x b) limit x s1 s'); try assumption.
    + apply attach_other.
    + intros y Hy. unfold s1. rewrite upd_ne by exact Hy. apply Hf.
    + unfold s1. rewrite upd_eq. cbn [with_base pose attach place]. apply (fit_pose _ _ _ (Hf x)).
    + unfold s1. rewrite upd_eq. cbn [with_base base attach on]. symmetry. apply set_eq.
    + intros c z Hne Hz. rewrite Hl1. cbn [attach on] in Hz. rewrite set_ne in Hz by exact Hne. apply Hl; assumption.
  - intros y. rewrite (cleared_links _ _ _ C). apply Hl1.
Qed.

Notation set_base := (set_base T root).
Notation add_link := (add_link T root).
Notation remove_link := (remove_link T root).

Definition leave (k limit : nat) (s : frames) (x : nat) (b : option nat) : result frames :=
  match b with None => Ok s | Some old => remove_link k limit s old x false end.
Lemma set_base_S : forall k limit s x b, set_base (S k) limit s x b =
  if root x then match b with None => Ok s | Some _ => Raise RuntimeError end
  else if same_base (base _ (s x)) b then Ok s
  else do s1 <- leave k limit s x (base _ (s x));
       do s3 <- updated limit (upd s1 x (with_base T b (s1 x))) x;
       match b with None => Ok s3 | Some b => add_link k limit s3 b x end.
Proof. reflexivity. Qed.
Lemma add_link_S : forall k limit s b x, add_link (S k) limit s b x =
  set_base k limit (upd s b (with_links T (insert x (links _ (s b))) (s b))) x (Some b).
Proof. reflexivity. Qed.
Lemma remove_link_S : forall k limit s b x force, remove_link (S k) limit s b x force =
  if existsb (Nat.eqb x) (links _ (s b)) then set_base k limit (upd s b (with_links T (remove x (links _ (s b))) (s b))) x None
  else if force then Raise RuntimeError else Ok s.
Proof. reflexivity. Qed.

Lemma set_base_spec : forall w limit x nb s k, shallow _ limit w -> shallow _ limit (attach w x nb) -> root x = false ->
  (forall y, fits w y (s y)) -> (forall z, root z = true -> on _ w z = None) ->
  (forall b z, z <> x -> In z (links _ (s b)) <-> on _ w z = Some b) ->
  (forall b, nb = on _ w x -> on _ w x = Some b -> In x (links _ (s b))) ->
  (forall b, In x (links _ (s b)) -> on _ w x = Some b \/ nb = Some b) ->
  exists s', set_base (S (S (S (S k)))) limit s x nb = Ok s' /\ coherent (attach w x nb) s'.
Proof.
  intros w limit x nb s k Hsh Hsh' Hr Hf Hro Hl Hsame Hin.
  assert (Hro' : forall z, root z = true -> on _ (attach w x nb) z = None).
  { intros z Hz. cbn [attach on]. destruct (Nat.eq_dec z x) as [->|Hne]; [congruence|]. rewrite set_ne by exact Hne. apply Hro. exact Hz. }
  remember (S (S (S k))) as k3 eqn:Ek3. rewrite set_base_S, Hr, (fit_base _ _ _ (Hf x)).
  destruct (same_base (on _ w x) nb) eqn:Es.
  - apply same_base_eq in Es. exists s. split; [reflexivity|].
    assert (Hext : forall y, on _ w y = on _ (attach w x nb) y /\ place _ w y = place _ (attach w x nb) y).
    { intros y. destruct (Nat.eq_dec y x) as [->|Hne]; [|apply attach_other; exact Hne]. cbn [attach on place]. rewrite set_eq. split; congruence. }
    split; [intros y; eapply fits_ext; [exact Hext|apply Hf]| |exact Hro'].
    intros b z. rewrite <- (proj1 (Hext z)). destruct (Nat.eq_dec z x) as [->|Hne]; [|apply Hl; exact Hne].
    split; [intros Hz; destruct (Hin b Hz); congruence|]. intros Hz. apply Hsame; [congruence|exact Hz].
  - assert (Hns : on _ w x <> nb) by (intros E; apply same_base_eq in E; congruence).
    (* after leaving the old base *)
    assert (Hleave : exists w1 s1, leave k3 limit s x (on _ w x) = Ok s1 /\
      (forall y, fits w1 y (s1 y)) /\ place _ w1 = place _ w /\ (forall y, y <> x -> on _ w1 y = on _ w y) /\
      (forall b z, z <> x -> In z (links _ (s1 b)) <-> on _ w z = Some b) /\ (forall b, In x (links _ (s1 b)) -> nb = Some b)).
    { destruct (on _ w x) as [old|] eqn:Eo.
      - destruct (existsb (Nat.eqb x) (links _ (s old))) eqn:Ee.
        + set (s0 := upd s old (with_links T (remove x (links _ (s old))) (s old))).
          assert (Hl0 : forall b z, z <> x -> In z (links _ (s0 b)) <-> on _ w z = Some b).
          { intros b z Hz. unfold s0. destruct (Nat.eq_dec b old) as [->|Hb].
            - rewrite upd_eq. cbn [with_links links]. rewrite In_remove, Hl by exact Hz. tauto.
            - rewrite upd_ne by exact Hb. apply Hl. exact Hz. }
          assert (Hx0 : forall b, In x (links _ (s0 b)) -> nb = Some b).
          { intros b Hb. unfold s0 in Hb. destruct (Nat.eq_dec b old) as [->|Hne].
            - rewrite upd_eq in Hb. cbn [with_links links] in Hb. apply In_remove in Hb. destruct Hb as [Hb _]. congruence.
            - rewrite upd_ne in Hb by exact Hne. destruct (Hin b Hb) as [E|E]; [congruence|exact E]. }
          assert (Hf0 : forall y, fits w y (s0 y)).
          { intros y. unfold s0. destruct (Nat.eq_dec y old) as [->|Hy]; [rewrite upd_eq; apply fits_links; apply Hf|rewrite upd_ne by exact Hy; apply Hf]. }
          assert (Ha0 : along (attach w x nb) s0).
          { intros y z Hz. destruct (Nat.eq_dec z x) as [->|Hne].
            - split; [|exact Hr]. cbn [attach on]. rewrite set_eq. apply Hx0. exact Hz.
            - apply Hl0 in Hz; [|exact Hne]. split; [cbn [attach on]; rewrite set_ne by exact Hne; exact Hz|].
              destruct (root z) eqn:Ez; [rewrite (Hro z Ez) in Hz; discriminate|reflexivity]. }
          destruct (rebase w (attach w x nb) limit x None s0 (detach_shallow _ _ _ Hsh) Hsh' Hr Hf0 Ha0) as [s1 [E1 [F1 A1]]].
          { intros c z Hne Hz. apply Hl0; assumption. }
          exists (attach w x None), s1. split; [|split; [exact F1|split; [reflexivity|split; [|split]]]].
          * unfold leave. rewrite Ek3, remove_link_S, Ee. fold s0. rewrite set_base_S, Hr, (fit_base _ _ _ (Hf0 x)), Eo. cbn [same_base]. unfold leave. rewrite remove_link_S.
            assert (En : existsb (Nat.eqb x) (links _ (s0 old)) = false).
            { apply existsb_not_In. intros Hb. unfold s0 in Hb. rewrite upd_eq in Hb. cbn [with_links links] in Hb. apply In_remove in Hb. destruct Hb as [Hb _]. congruence. }
            rewrite En. cbn [bind]. rewrite E1. reflexivity.
          * intros y Hy. cbn [attach on]. apply set_ne. exact Hy.
          * intros b z Hz. rewrite A1. apply Hl0. exact Hz.
          * intros b Hb. rewrite A1 in Hb. apply Hx0. exact Hb.
        + exists w, s. split; [unfold leave; rewrite Ek3, remove_link_S, Ee; reflexivity|]. split; [exact Hf|]. split; [reflexivity|]. split; [reflexivity|].
          split; [exact Hl|]. intros b Hb. destruct (Hin b Hb) as [E|E]; [|exact E]. injection E as <-. apply existsb_not_In in Ee. contradiction.
      - exists w, s. split; [reflexivity|]. split; [exact Hf|]. split; [reflexivity|]. split; [reflexivity|]. split; [exact Hl|].
        intros b Hb. destruct (Hin b Hb) as [E|E]; [discriminate|exact E]. }
    destruct Hleave as [w1 [s1 [E1 [F1 [Wp [Wo [L1 X1]]]]]]]. rewrite E1. cbn [bind].
    assert (Hext : forall y, on _ (attach w1 x nb) y = on _ (attach w x nb) y /\ place _ (attach w1 x nb) y = place _ (attach w x nb) y).
    { intros y. cbn [attach on place]. rewrite Wp. split; [|reflexivity]. destruct (Nat.eq_dec y x) as [->|Hne]; [rewrite !set_eq; reflexivity|rewrite !set_ne by exact Hne; apply Wo; exact Hne]. }
    assert (Ha1 : along (attach w x nb) s1).
    { intros y z Hz. destruct (Nat.eq_dec z x) as [->|Hne].
      - split; [|exact Hr]. cbn [attach on]. rewrite set_eq. apply X1. exact Hz.
      - apply L1 in Hz; [|exact Hne]. split; [cbn [attach on]; rewrite set_ne by exact Hne; exact Hz|].
        destruct (root z) eqn:Ez; [rewrite (Hro z Ez) in Hz; discriminate|reflexivity]. }
    assert (Hsh1 : shallow _ limit (attach w1 x nb)).
    { intros y. destruct (Hsh' y) as [n [Hn Hd]]. exists n. split; [exact Hn|]. clear -Hd Hext.
      induction Hd as [y Hy|y b n Hy Hd IH]; [apply D_top; rewrite (proj1 (Hext y)); exact Hy|eapply D_step; [rewrite (proj1 (Hext y)); exact Hy|exact IH]]. }
    destruct (rebase w1 (attach w x nb) limit x nb s1 Hsh1 Hsh' Hr F1 Ha1) as [s2 [E2 [F2 A2]]].
    { intros c z Hne Hz. apply L1; [exact Hne|]. rewrite <- Wo by exact Hne. exact Hz. }
    rewrite E2. cbn [bind].
    assert (F2' : forall y, fits (attach w x nb) y (s2 y)) by (intros y; eapply fits_ext; [exact Hext|apply F2]).
    assert (Hon : forall b z, z <> x -> In z (links _ (s2 b)) <-> on _ (attach w x nb) z = Some b).
    { intros b z Hz. rewrite A2. cbn [attach on]. rewrite set_ne by exact Hz. apply L1. exact Hz. }
    destruct nb as [b|].
    + set (s3 := upd s2 b (with_links T (insert x (links _ (s2 b))) (s2 b))). exists s3.
      assert (F3 : forall y, fits (attach w x (Some b)) y (s3 y)).
      { intros y. unfold s3. destruct (Nat.eq_dec y b) as [->|Hy]; [rewrite upd_eq; apply fits_links; apply F2'|rewrite upd_ne by exact Hy; apply F2']. }
      split.
      * rewrite Ek3, add_link_S. fold s3. rewrite set_base_S, Hr, (fit_base _ _ _ (F3 x)). cbn [attach on]. rewrite set_eq.
        cbn [same_base]. rewrite Nat.eqb_refl. reflexivity.
      * split; [exact F3| |exact Hro']. intros c z. unfold s3. destruct (Nat.eq_dec c b) as [->|Hc].
        -- rewrite upd_eq. cbn [with_links links]. rewrite In_insert. destruct (Nat.eq_dec z x) as [->|Hz].
           ++ cbn [attach on]. rewrite set_eq. tauto.
           ++ rewrite Hon by exact Hz. tauto.
        -- rewrite upd_ne by exact Hc. destruct (Nat.eq_dec z x) as [->|Hz]; [|apply Hon; exact Hz].
           cbn [attach on]. rewrite set_eq, A2. split; [intros Hb; apply X1 in Hb; congruence|congruence].
    + exists s2. split; [reflexivity|]. split; [exact F2'| |exact Hro'].
      intros c z. destruct (Nat.eq_dec z x) as [->|Hz]; [|apply Hon; exact Hz].
      cbn [attach on]. rewrite set_eq, A2. split; [intros Hb; apply X1 in Hb; congruence|discriminate].
Qed.

(** ** Calls *)
Notation perform := (perform T mul inv one root).
Notation act := (act T).
Lemma perform_spec : forall w limit s c, shallow _ limit w -> coherent w s -> proper T root c -> shallow _ limit (act w c) ->
  match perform limit s c with
  | Ok (s', t) => answer T mul inv one root w c (Ok t) /\ coherent (act w c) s'
  | Raise e => answer T mul inv one root w c (Raise e) /\ act w c = w
  end.
Proof.
  intros w limit s c Hsh Hc Hp Hsh'. destruct c as [x f|x b|b x|b x force|x|x|x g|x y]; unfold Kin_Model.perform; cbn [proper Kin_Spec.act answer] in *.
  - destruct (move_spec w limit x f s Hsh Hp Hc) as [s' [E C]]. rewrite E. cbn [bind]. split; [reflexivity|exact C].
  - destruct (set_base_spec w limit x b s 4 Hsh Hsh' Hp (co_fits _ _ Hc) (co_roots _ _ Hc)) as [s' [E C]].
    + intros b' z _. apply (co_links _ _ Hc).
    + intros b' _ Hb. apply (co_links _ _ Hc). exact Hb.
    + intros b' Hb. left. apply (co_links _ _ Hc). exact Hb.
    + rewrite E. cbn [bind]. split; [reflexivity|exact C].
  - set (s1 := upd s b (with_links T (insert x (links _ (s b))) (s b))).
    destruct (set_base_spec w limit x (Some b) s1 3 Hsh Hsh' Hp) as [s' [E C]].
    + intros y. unfold s1. destruct (Nat.eq_dec y b) as [->|Hy]; [rewrite upd_eq; apply fits_links; apply (co_fits _ _ Hc)|rewrite upd_ne by exact Hy; apply (co_fits _ _ Hc)].
    + apply (co_roots _ _ Hc).
    + intros b' z Hz. unfold s1. destruct (Nat.eq_dec b' b) as [->|Hb].
      * rewrite upd_eq. cbn [with_links links]. rewrite In_insert, (co_links _ _ Hc). tauto.
      * rewrite upd_ne by exact Hb. apply (co_links _ _ Hc).
    + intros b' E Hb. rewrite <- E in Hb. injection Hb as <-. unfold s1. rewrite upd_eq. cbn [with_links links]. apply In_insert. left. reflexivity.
    + intros b' Hb. unfold s1 in Hb. destruct (Nat.eq_dec b' b) as [->|Hne]; [right; reflexivity|]. rewrite upd_ne in Hb by exact Hne. left. apply (co_links _ _ Hc). exact Hb.
    + rewrite add_link_S. fold s1. rewrite E. cbn [bind]. split; [reflexivity|exact C].
  - destruct (same_base (on _ w x) (Some b)) eqn:Es.
    + rewrite andb_false_r. set (s1 := upd s b (with_links T (remove x (links _ (s b))) (s b))).
      assert (Eo : on _ w x = Some b) by (apply same_base_eq; exact Es).
      assert (Ex : existsb (Nat.eqb x) (links _ (s b)) = true) by (apply existsb_In; apply (co_links _ _ Hc); exact Eo).
      destruct (set_base_spec w limit x None s1 3 Hsh Hsh' Hp) as [s' [E C]].
      * intros y. unfold s1. destruct (Nat.eq_dec y b) as [->|Hy]; [rewrite upd_eq; apply fits_links; apply (co_fits _ _ Hc)|rewrite upd_ne by exact Hy; apply (co_fits _ _ Hc)].
      * apply (co_roots _ _ Hc).
      * intros b' z Hz. unfold s1. destruct (Nat.eq_dec b' b) as [->|Hb].
        -- rewrite upd_eq. cbn [with_links links]. rewrite In_remove, (co_links _ _ Hc). tauto.
        -- rewrite upd_ne by exact Hb. apply (co_links _ _ Hc).
      * intros b' E Hb. congruence.
      * intros b' Hb. left. unfold s1 in Hb. destruct (Nat.eq_dec b' b) as [->|Hne]; [exact Eo|]. rewrite upd_ne in Hb by exact Hne. apply (co_links _ _ Hc). exact Hb.
      * rewrite remove_link_S, Ex. fold s1. rewrite E. cbn [bind]. split; [reflexivity|exact C].
    + assert (Ex : existsb (Nat.eqb x) (links _ (s b)) = false).
      { apply existsb_not_In. intros Hb. apply (co_links _ _ Hc) in Hb. apply same_base_eq in Hb. congruence. }
      rewrite remove_link_S, Ex. cbn [negb]. rewrite andb_true_r. destruct force; cbn [bind]; split; try reflexivity. exact Hc.
  - destruct (Hsh x) as [d [Hd1 Hd2]]. destruct (forwards_spec w limit x d s Hd2 Hd1 Hc) as [s' [t [E [G C]]]]. rewrite E. cbn [bind].
    split; [exists t; split; [exact G|reflexivity]|exact C].
  - destruct (backwards_spec w limit x s Hsh Hp Hc) as [s' [t [E [G C]]]]. rewrite E. cbn [bind].
    split; [exists t; split; [exact G|reflexivity]|exact C].
  - unfold to_local. destruct (backwards_spec w limit x s Hsh Hp Hc) as [s' [t [E [G C]]]]. rewrite E. cbn [bind].
    split; [exists t; split; [exact G|reflexivity]|exact C].
  - unfold to_local_frame, to_local. destruct (Hsh y) as [d [Hd1 Hd2]]. destruct (forwards_spec w limit y d s Hd2 Hd1 Hc) as [s1 [u [E1 [G1 C1]]]]. rewrite E1. cbn [bind].
    destruct (backwards_spec w limit x s1 Hsh Hp C1) as [s' [t [E [G C]]]]. rewrite E. cbn [bind].
    split; [exists t, u; split; [exact G|]; split; [exact G1|reflexivity]|exact C].
Qed.
Lemma perform_all_spec : forall limit l w s, shallow _ limit w -> coherent w s -> sound T root limit w l ->
  answers T mul inv one root w l (perform_all T mul inv one root limit s l).
Proof.
  intros limit l. induction l as [|c l IH]; intros w s Hsh Hc Hs; [exact I|]. cbn [sound] in Hs. destruct Hs as [Hp [Hsh' Hs]].
  pose proof (perform_spec w limit s c Hsh Hc Hp Hsh') as H. cbn [perform_all]. destruct (perform limit s c) as [[s' t]|e]; cbn [answers]; destruct H as [H1 H2].
  - split; [exact H1|]. apply IH; assumption.
  - split; [exact H1|]. rewrite H2 in *. apply IH; assumption.
Qed.
Lemma detached_coherent : forall p, coherent (mkWorld _ p (fun _ => None)) (detached T p).
Proof.
  intros p. split; [|intros b x; cbn; split; [intros []|discriminate]|reflexivity].
  intros y. split; try reflexivity; cbn; discriminate.
Qed.
Lemma detached_shallow : forall p limit, 0 < limit -> shallow _ limit (mkWorld T p (fun _ => None)).
Proof. intros p limit H x. exists 0. split; [exact H|]. apply D_top. reflexivity. Qed.
End Proofs.
