(** Proofs about the links between waveforms and their routines (C38). *)
From Coq Require Import List Arith Bool Lia.
From Verif Require Import Base BaseLemmas Attach_Model.
Import ListNotations.

Lemma same_spec x y : same x y = true <-> x = y.
Proof.
  destruct x as [a|], y as [b|]; cbn; try (split; congruence).
  rewrite Nat.eqb_eq. split; congruence.
Qed.

Lemma owner_set s v w x : v < length (c_owner s) -> owner (set_owner s v w) x = if x =? v then w else owner s x.
Proof.
  intros H. unfold owner, set_owner; cbn [c_owner].
  destruct (Nat.eqb_spec x v) as [->|].
  - rewrite app_nth2 by (rewrite firstn_length; lia). rewrite firstn_length_le by lia. now rewrite Nat.sub_diag.
  - destruct (Nat.lt_ge_cases x v).
    + rewrite app_nth1 by (rewrite firstn_length; lia). rewrite <- (firstn_skipn v (c_owner s)) at 2.
      rewrite app_nth1 by (rewrite firstn_length; lia). reflexivity.
    + rewrite app_nth2 by (rewrite firstn_length; lia). rewrite firstn_length_le by lia.
      destruct (x - v) as [|d] eqn:E; [lia|]. cbn [nth].
      rewrite <- (firstn_skipn (S v) (c_owner s)) at 2.
      destruct (Nat.lt_ge_cases v (length (c_owner s))); [|lia].
      rewrite app_nth2 by (rewrite firstn_length; lia). rewrite firstn_length_le by lia. f_equal; lia.
Qed.
Lemma len_set s v w : v < length (c_owner s) -> length (c_owner (set_owner s v w)) = length (c_owner s).
Proof. intros H. cbn [c_owner set_owner]. rewrite app_length, firstn_length. cbn [length]. rewrite skipn_length. lia. Qed.
Lemma owner_new s w x : owner (new_routine s w) x = if x =? length (c_owner s) then w else owner s x.
Proof.
  unfold owner, new_routine; cbn. destruct (Nat.eqb_spec x (length (c_owner s))) as [->|].
  - rewrite app_nth2 by lia. now rewrite Nat.sub_diag.
  - destruct (Nat.lt_ge_cases x (length (c_owner s))); [now rewrite app_nth1|].
    rewrite !nth_overflow; auto. rewrite app_length; cbn; lia.
Qed.
Lemma len_new s w : length (c_owner (new_routine s w)) = S (length (c_owner s)).
Proof. cbn. rewrite app_length; cbn; lia. Qed.
Lemma owner_lt s v u : owner s v = Some u -> v < length (c_owner s).
Proof. unfold owner. intros H. destruct (Nat.lt_ge_cases v (length (c_owner s))); auto. rewrite nth_overflow in H by auto. discriminate. Qed.

(** The waveforms in [P] use a routine that reports them; only waveforms below [n] use
    routines and are reported. *)
Definition consistent (P : nat -> Prop) (n : nat) (s : links) : Prop :=
  (forall w, P w -> exists v, c_slot s w = Some v /\ owner s v = Some w) /\
  (forall w v, c_slot s w = Some v -> w < n) /\
  (forall v w, owner s v = Some w -> w < n).

Ltac eqn := repeat match goal with
  | |- context [?a =? ?b] => destruct (Nat.eqb_spec a b); subst
  | H : context [?a =? ?b] |- _ => destruct (Nat.eqb_spec a b); subst
  end.

(** Assigning a fresh routine takes two nested calls and always succeeds. *)
Lemma sync_fresh k s u : c_slot s u <> None \/ True ->
  sync_assign (S (S k)) (new_routine s None) u (length (c_owner s)) =
  (set_owner (set_slot (new_routine s None) u (length (c_owner s))) (length (c_owner s)) (Some u), None).
Proof.
  intros _. cbn [sync_assign sync_attach].
  change (owner (set_slot ?a ?b ?c) ?d) with (owner a d).
  rewrite owner_new, Nat.eqb_refl. reflexivity.
Qed.
Lemma est_fresh k s u :
  est_assign (S (S (S k))) (new_routine s None) u (length (c_owner s)) =
  (set_slot (set_owner (set_slot (new_routine s None) u (length (c_owner s))) (length (c_owner s)) (Some u)) u (length (c_owner s)), None).
Proof.
  cbn [est_assign est_attach].
  change (owner (set_slot ?a ?b ?c) ?d) with (owner a d).
  rewrite owner_new, Nat.eqb_refl. cbn [same andthen].
  change (owner (set_slot ?a ?b ?c) ?d) with (owner a d).
  rewrite owner_set by (change (c_owner (set_slot ?a ?b ?c)) with (c_owner a); rewrite len_new; lia).
  rewrite Nat.eqb_refl. cbn [same]. now rewrite Nat.eqb_refl.
Qed.

(** State after a synchronization was assigned. *)
Definition displaced (s : links) (v : nat) : option nat :=
  match owner s v with
  | Some u => if same (c_slot s u) (Some v) then Some u else None
  | None => None
  end.

Lemma sync_attach_spec k s v w : v < length (c_owner s) ->
  exists s', sync_attach (S (S (S k))) s v w = (s', None) /\
    (forall x, x < length (c_owner s) -> owner s' x = if x =? v then w else owner s x) /\
    (match displaced s v with
     | Some u => length (c_owner s') = S (length (c_owner s)) /\ owner s' (length (c_owner s)) = Some u /\
                 forall x, c_slot s' x = if x =? u then Some (length (c_owner s)) else c_slot s x
     | None => length (c_owner s') = length (c_owner s) /\ c_slot s' = c_slot s
     end).
Proof.
  intros Hv. set (m := S (S k)). cbn [sync_attach]. subst m. unfold displaced.
  destruct (owner s v) as [u|] eqn:Eo; [destruct (same (c_slot s u) (Some v)) eqn:Es|].
  - rewrite sync_fresh by auto. cbn [andthen]. eexists; split; [reflexivity|].
    set (L := length (c_owner s)) in *.
    assert (L1 : L < length (c_owner (set_slot (new_routine s None) u L))).
    { change (c_owner (set_slot ?a ?b ?c)) with (c_owner a). rewrite len_new. fold L. lia. }
    assert (L2 : v < length (c_owner (set_owner (set_slot (new_routine s None) u L) L (Some u)))) by (rewrite len_set by auto; lia).
    split.
    + intros x Hx. rewrite owner_set by auto. destruct (Nat.eqb_spec x v) as [->|]; [auto|].
      rewrite owner_set by auto. destruct (Nat.eqb_spec x L); [lia|].
      change (owner (set_slot ?a ?b ?c) ?d) with (owner a d). rewrite owner_new. fold L.
      destruct (Nat.eqb_spec x L); [lia|auto].
    + split; [rewrite len_set by auto; rewrite len_set by auto; change (c_owner (set_slot ?a ?b ?c)) with (c_owner a); apply len_new|].
      split; [|intros x; reflexivity].
      rewrite owner_set by auto. destruct (Nat.eqb_spec L v); [lia|]. rewrite owner_set by auto. now rewrite Nat.eqb_refl.
  - cbn [andthen]. eexists; split; [reflexivity|]. split; [intros x Hx; now apply owner_set|]. split; [now apply len_set|reflexivity].
  - cbn [andthen]. eexists; split; [reflexivity|]. split; [intros x Hx; now apply owner_set|]. split; [now apply len_set|reflexivity].
Qed.

Definition below (n : nat) (w : option nat) : Prop := match w with Some x => x < n | None => True end.
Lemma sync_attach_consistent k P n s v w : consistent P n s -> v < length (c_owner s) -> below n w ->
  exists s', sync_attach (S (S (S k))) s v w = (s', None) /\ consistent P n s' /\ length (c_owner s) <= length (c_owner s') /\
    owner s' v = w /\ (forall x, owner s v <> Some x -> c_slot s' x = c_slot s x) /\
    (forall x, x < length (c_owner s) -> x <> v -> owner s' x = owner s x).
Proof.
  intros (C1 & C2 & C3) Hv Hw. destruct (sync_attach_spec k s v w Hv) as (s' & E & Ho & Hd). exists s'. split; [auto|].
  assert (Hov : owner s' v = w) by (rewrite Ho, Nat.eqb_refl by auto; reflexivity).
  assert (Hox : forall x, x < length (c_owner s) -> x <> v -> owner s' x = owner s x).
  { intros x H1 H2. rewrite Ho by auto. destruct (Nat.eqb_spec x v); [congruence|auto]. }
  unfold displaced in Hd. destruct (owner s v) as [u|] eqn:Eo; [destruct (same (c_slot s u) (Some v)) eqn:Es|].
  - destruct Hd as (D1 & D2 & D3). apply same_spec in Es. split; [|split; [lia|]]; [split; [|split]|].
    + intros x Hx. rewrite D3. destruct (Nat.eqb_spec x u) as [->|]; [eauto|].
      destruct (C1 x Hx) as (y & Y1 & Y2). exists y. split; [auto|]. rewrite Ho by (eapply owner_lt; eauto).
      destruct (Nat.eqb_spec y v) as [->|]; [congruence|auto].
    + intros x y. rewrite D3. destruct (Nat.eqb_spec x u) as [->|]; [intros _; eauto|apply C2].
    + intros y x Hy. destruct (Nat.eq_dec y (length (c_owner s))) as [->|].
      * rewrite D2 in Hy. injection Hy as <-. eauto.
      * assert (y < length (c_owner s)) by (apply owner_lt in Hy; lia). rewrite Ho in Hy by auto.
        destruct (y =? v); [rewrite Hy in Hw; exact Hw|eauto].
    + split; [auto|]. split; [|auto]. intros x Hx. rewrite D3. destruct (Nat.eqb_spec x u); [congruence|auto].
  - destruct Hd as (D1 & D2). split; [|split; [lia|]]; [split; [|split]|].
    + intros x Hx. rewrite D2. destruct (C1 x Hx) as (y & Y1 & Y2). exists y. split; [auto|].
      rewrite Ho by (eapply owner_lt; eauto). destruct (Nat.eqb_spec y v) as [->|]; [|auto].
      assert (x = u) by congruence. subst. rewrite Y1 in Es. cbn in Es. rewrite Nat.eqb_refl in Es. discriminate.
    + rewrite D2. auto.
    + intros y x Hy. assert (y < length (c_owner s)) by (apply owner_lt in Hy; lia). rewrite Ho in Hy by auto.
      destruct (y =? v); [rewrite Hy in Hw; exact Hw|eauto].
    + split; [auto|]. split; [|auto]. now rewrite D2.
  - destruct Hd as (D1 & D2). split; [|split; [lia|]]; [split; [|split]|].
    + intros x Hx. rewrite D2. destruct (C1 x Hx) as (y & Y1 & Y2). exists y. split; [auto|].
      rewrite Ho by (eapply owner_lt; eauto). destruct (Nat.eqb_spec y v) as [->|]; [congruence|auto].
    + rewrite D2. auto.
    + intros y x Hy. assert (y < length (c_owner s)) by (apply owner_lt in Hy; lia). rewrite Ho in Hy by auto.
      destruct (y =? v); [rewrite Hy in Hw; exact Hw|eauto].
    + split; [auto|]. split; [|auto]. now rewrite D2.
Qed.

Lemma set_slot_but P n s w v : consistent P n s -> w < n -> consistent (fun x => P x /\ x <> w) n (set_slot s w v).
Proof.
  intros (C1 & C2 & C3) Hw. split; [|split]; cbn.
  - intros x [Hx Hn]. destruct (Nat.eqb_spec x w); [congruence|]. now apply C1.
  - intros x y. destruct (Nat.eqb_spec x w) as [->|]; eauto.
  - apply C3.
Qed.
Lemma consistent_add (P : nat -> Prop) n s w v : consistent (fun x => P x /\ x <> w) n s -> c_slot s w = Some v -> owner s v = Some w ->
  consistent (fun x => P x \/ x = w) n s.
Proof.
  intros (C1 & C2 & C3) H1 H2. split; [|split]; auto. intros x Hx.
  destruct (Nat.eq_dec x w) as [->|]; [eauto|]. apply C1. tauto.
Qed.

Definition assign_result (P : nat -> Prop) (n w v : nat) (s s' : links) : Prop :=
  consistent (fun x => P x \/ x = w) n s' /\ length (c_owner s) <= length (c_owner s') /\
  c_slot s' w = Some v /\
  (forall x, x <> w -> owner s v <> Some x -> c_slot s' x = c_slot s x) /\
  (forall x, x < length (c_owner s) -> x <> v -> owner s' x = owner s x).

Lemma sync_assign_consistent k P n s w v : consistent P n s -> w < n -> v < length (c_owner s) ->
  exists s', sync_assign (S (S (S (S k)))) s w v = (s', None) /\ assign_result P n w v s s'.
Proof.
  intros C Hw Hv. set (m := S (S (S k))). cbn [sync_assign]. subst m.
  change (owner (set_slot s w v) v) with (owner s v).
  destruct (same (owner s v) (Some w)) eqn:Es.
  - apply same_spec in Es. eexists; split; [reflexivity|]. split; [|split; [|split; [|split]]]; auto.
    + apply consistent_add with (v := v); auto using set_slot_but. cbn. now rewrite Nat.eqb_refl.
    + cbn. now rewrite Nat.eqb_refl.
    + intros x Hx _. cbn. destruct (Nat.eqb_spec x w); [congruence|auto].
  - assert (Hne : owner s v <> Some w) by (intros H; rewrite <- same_spec in H; congruence).
    destruct (sync_attach_consistent k (fun x => P x /\ x <> w) n (set_slot s w v) v (Some w)) as (s' & E & C' & L & O & F & G);
      auto using set_slot_but.
    exists s'. split; [exact E|].
    assert (Hs : c_slot s' w = Some v) by (rewrite F by auto; cbn; now rewrite Nat.eqb_refl).
    split; [|split; [|split; [|split]]]; auto.
    + apply consistent_add with (v := v); auto.
    + intros x Hx Hox. rewrite F by auto. cbn. destruct (Nat.eqb_spec x w); [congruence|auto].
Qed.

(** Channel estimators. *)
Lemma fresh_consistent P n s u : consistent (fun x => P x /\ x <> u) n s -> u < n ->
  forall s', s' = set_slot (set_owner (set_slot (new_routine s None) u (length (c_owner s))) (length (c_owner s)) (Some u)) u (length (c_owner s)) ->
  consistent (fun x => P x \/ x = u) n s' /\ length (c_owner s') = S (length (c_owner s)) /\
  (forall x, x < length (c_owner s) -> owner s' x = owner s x) /\ (forall x, x <> u -> c_slot s' x = c_slot s x).
Proof.
  intros (C1 & C2 & C3) Hu s' ->. set (L := length (c_owner s)).
  assert (L1 : L < length (c_owner (set_slot (new_routine s None) u L))).
  { change (c_owner (set_slot ?a ?b ?c)) with (c_owner a). rewrite len_new. fold L. lia. }
  assert (Ho : forall x, owner (set_slot (set_owner (set_slot (new_routine s None) u L) L (Some u)) u L) x =
                 if x =? L then Some u else owner s x).
  { intros x. change (owner (set_slot ?a ?b ?c) ?d) with (owner a d). rewrite owner_set by auto.
    change (owner (set_slot ?a ?b ?c) ?d) with (owner a d). rewrite owner_new. fold L. destruct (x =? L); auto. }
  split; [split; [|split]|split; [|split]].
  - intros x Hx. destruct (Nat.eq_dec x u) as [->|Hne].
    + exists L. cbn [c_slot set_slot]. rewrite Nat.eqb_refl. split; [auto|]. rewrite Ho. now rewrite Nat.eqb_refl.
    + destruct (C1 x) as (y & Y1 & Y2); [tauto|]. exists y. split.
      * cbn. destruct (Nat.eqb_spec x u); [congruence|auto].
      * rewrite Ho. apply owner_lt in Y2 as Hy. destruct (Nat.eqb_spec y L); [unfold L in *; lia|auto].
  - intros x y. cbn. destruct (Nat.eqb_spec x u) as [->|]; [auto|]. apply C2.
  - intros x y. rewrite Ho. destruct (x =? L); [intros [= <-]; auto|apply C3].
  - change (c_owner (set_slot ?a ?b ?c)) with (c_owner a). rewrite len_set by auto.
    change (c_owner (set_slot ?a ?b ?c)) with (c_owner a). apply len_new.
  - intros x Hx. rewrite Ho. destruct (Nat.eqb_spec x L); [unfold L in *; lia|auto].
  - intros x Hx. cbn. destruct (Nat.eqb_spec x u); [congruence|auto].
Qed.
Lemma weaken (P Q : nat -> Prop) n s : (forall x, Q x -> P x) -> consistent P n s -> consistent Q n s.
Proof. intros H (C1 & C2 & C3). split; [|split]; auto. Qed.
Lemma set_owner_consistent (P : nat -> Prop) n s v w : consistent P n s -> v < length (c_owner s) -> below n w ->
  (forall x, P x -> owner s v <> Some x) -> consistent P n (set_owner s v w).
Proof.
  intros (C1 & C2 & C3) Hv Hw Hn. split; [|split]; auto.
  - intros x Hx. destruct (C1 x Hx) as (y & Y1 & Y2). exists y. split; [auto|]. rewrite owner_set by auto.
    destruct (Nat.eqb_spec y v) as [->|]; [|auto]. elim (Hn x Hx Y2).
  - intros x y. rewrite owner_set by auto. destruct (x =? v); [intros H; rewrite H in Hw; exact Hw|apply C3].
Qed.

(** [v.waveform = w] for an estimator: the waveform it reported before gets a fresh one. *)
Lemma est_attach_consistent k P n s v w : consistent P n s -> v < length (c_owner s) -> below n w ->
  exists s', est_attach (S (S (S (S (S k))))) s v w = (s', None) /\
    consistent (fun x => P x \/ w = Some x) n s' /\ length (c_owner s) <= length (c_owner s') /\
    owner s' v = w /\ (forall x, w = Some x -> c_slot s' x = Some v) /\
    (forall x, w <> Some x -> owner s v <> Some x -> c_slot s' x = c_slot s x) /\
    (forall x, x < length (c_owner s) -> x <> v -> owner s' x = owner s x).
Proof.
  intros C Hv Hw. pose proof C as (_ & _ & C3). destruct w as [w|].
  - (* attach *)
    assert (Hfin : forall s1 m, consistent (fun x => P x /\ owner s v <> Some x) n s1 -> (forall u, owner s v = Some u -> u <> w -> exists y, c_slot s1 u = Some y /\ owner s1 y = Some u /\ y <> v) ->
       length (c_owner s) <= length (c_owner s1) -> (forall x, x < length (c_owner s) -> owner s1 x = owner s x) ->
       (forall x, owner s v <> Some x -> c_slot s1 x = c_slot s x) ->
       exists s', est_assign (S m) (set_owner s1 v (Some w)) w v = (s', None) /\
         consistent (fun x => P x \/ Some w = Some x) n s' /\ length (c_owner s) <= length (c_owner s') /\
         owner s' v = Some w /\ (forall x, Some w = Some x -> c_slot s' x = Some v) /\
         (forall x, Some w <> Some x -> owner s v <> Some x -> c_slot s' x = c_slot s x) /\
         (forall x, x < length (c_owner s) -> x <> v -> owner s' x = owner s x)).
    { intros s1 m Cs Hu Hl Ho Hsl. cbn [est_assign].
      change (owner (set_slot ?a ?b ?c) ?d) with (owner a d).
      assert (Hv1 : v < length (c_owner s1)) by lia.
      rewrite owner_set, Nat.eqb_refl by auto. cbn [same]. rewrite Nat.eqb_refl.
      eexists; split; [reflexivity|].
      assert (How : forall x, owner (set_slot (set_owner s1 v (Some w)) w v) x = if x =? v then Some w else owner s1 x).
      { intros x. change (owner (set_slot ?a ?b ?c) ?d) with (owner a d). now rewrite owner_set. }
      assert (Cs1 : consistent (fun x => P x /\ x <> w) n s1).
      { destruct Cs as (D1 & D2 & D3). split; [|split]; auto. intros x [Hx Hxw].
        destruct (owner s v) as [u|] eqn:Eo; [|apply D1; split; [auto|congruence]].
        destruct (Nat.eq_dec x u) as [->|Hne]; [|apply D1; split; [auto|congruence]].
        destruct (Hu u eq_refl Hxw) as (y & Y1 & Y2 & _). eauto. }
      split; [|split; [|split; [|split; [|split]]]].
      + apply weaken with (P := fun x => P x \/ x = w); [intros x [H|H]; [auto|right; congruence]|].
        destruct Cs1 as (D1 & D2 & D3). split; [|split].
        * intros x Hx. destruct (Nat.eq_dec x w) as [->|Hne].
          -- exists v. rewrite How, Nat.eqb_refl. cbn. now rewrite Nat.eqb_refl.
          -- assert (HP : P x) by tauto. destruct (D1 x (conj HP Hne)) as (y & Y1 & Y2).
             assert (Hyv : y <> v).
             { intros ->. rewrite Ho in Y2 by auto. destruct (Hu x Y2 Hne) as (y' & Y1' & _ & Hy'). congruence. }
             exists y. rewrite How. cbn. destruct (Nat.eqb_spec x w); [congruence|]. destruct (Nat.eqb_spec y v); [congruence|auto].
        * intros x y. cbn. destruct (Nat.eqb_spec x w) as [->|]; [intros _; exact Hw|apply D2].
        * intros x y. rewrite How. destruct (x =? v); [intros [= <-]; exact Hw|apply D3].
      + change (c_owner (set_slot ?a ?b ?c)) with (c_owner a). rewrite len_set by auto. auto.
      + rewrite How. now rewrite Nat.eqb_refl.
      + intros x [= <-]. cbn. now rewrite Nat.eqb_refl.
      + intros x Hx Hox. cbn. destruct (Nat.eqb_spec x w); [congruence|auto].
      + intros x Hx Hxv. rewrite How. destruct (Nat.eqb_spec x v); [congruence|auto]. }
    set (m := S (S (S (S k)))). cbn [est_attach]. subst m.
    destruct (owner s v) as [u|] eqn:Eo; [destruct (Nat.eqb_spec u w) as [->|Hne]|].
    + cbn [andthen]. apply Hfin; auto.
      * eapply weaken; [|exact C]. tauto.
      * intros u [= <-] H; congruence.
    + rewrite est_fresh. cbn [andthen].
      destruct (fresh_consistent P n s u) with (s' := set_slot (set_owner (set_slot (new_routine s None) u (length (c_owner s))) (length (c_owner s)) (Some u)) u (length (c_owner s))) as (F1 & F2 & F3 & F4); auto.
      { eapply weaken; [|exact C]. tauto. } { eauto. }
      apply Hfin.
      * eapply weaken; [|exact F1]. tauto.
      * intros u' [= <-] _. exists (length (c_owner s)). split; [cbn; now rewrite Nat.eqb_refl|]. split; [|lia].
        change (owner (set_slot ?a ?b ?c) ?d) with (owner a d). rewrite owner_set, Nat.eqb_refl; [auto|].
        change (c_owner (set_slot ?a ?b ?c)) with (c_owner a). rewrite len_new. lia.
      * rewrite F2. lia.
      * exact F3.
      * intros x Hx. apply F4. congruence.
    + cbn [andthen]. apply Hfin; auto; [|discriminate]. eapply weaken; [|exact C]. tauto.
  - (* detach *)
    set (m := S (S (S (S k)))). cbn [est_attach]. subst m.
    destruct (owner s v) as [u|] eqn:Eo.
    + rewrite <- (len_set s v None) by auto. rewrite est_fresh. rewrite !len_set by auto.
      eexists; split; [reflexivity|].
      pose proof (fresh_consistent P n (set_owner s v None) u) as F.
      rewrite len_set in F by auto. edestruct F as (F1 & F2 & F3 & F4); [| |reflexivity|]; clear F.
      * apply set_owner_consistent; auto. { eapply weaken; [|exact C]. tauto. }
        intros x [_ Hx]. congruence.
      * eauto.
      * split; [eapply weaken; [|exact F1]; intros x [H|H]; [auto|discriminate]|].
        split; [rewrite F2; lia|]. split.
        { rewrite F3 by auto. rewrite owner_set by auto. now rewrite Nat.eqb_refl. }
        split; [discriminate|]. split.
        { intros x _ Hx. rewrite F4 by congruence. reflexivity. }
        intros x Hx Hxv. rewrite F3 by auto. rewrite owner_set by auto. destruct (Nat.eqb_spec x v); [congruence|auto].
    + eexists; split; [reflexivity|]. split; [|split; [|split; [|split; [|split]]]].
      * eapply weaken; [|apply set_owner_consistent with (w := None); try exact C; auto; try exact I; congruence].
        intros x [H|H]; [auto|discriminate].
      * rewrite len_set; auto.
      * rewrite owner_set by auto. now rewrite Nat.eqb_refl.
      * discriminate.
      * reflexivity.
      * intros x Hx Hxv. rewrite owner_set by auto. destruct (Nat.eqb_spec x v); [congruence|auto].
Qed.

Lemma est_assign_consistent P n s w v : consistent P n s -> w < n -> v < length (c_owner s) ->
  exists s', est_assign 6 s w v = (s', None) /\ assign_result P n w v s s'.
Proof.
  intros C Hw Hv. set (m := 5). cbn [est_assign]. subst m.
  change (owner (set_slot s w v) v) with (owner s v).
  destruct (same (owner s v) (Some w)) eqn:Es.
  - apply same_spec in Es. eexists; split; [reflexivity|]. split; [|split; [|split; [|split]]]; auto.
    + apply consistent_add with (v := v); auto using set_slot_but. cbn. now rewrite Nat.eqb_refl.
    + cbn. now rewrite Nat.eqb_refl.
    + intros x Hx _. cbn. destruct (Nat.eqb_spec x w); [congruence|auto].
  - destruct (est_attach_consistent 0 (fun x => P x /\ x <> w) n (set_slot s w v) v (Some w)) as (s' & E & C' & L & O & Sl & F & G);
      auto using set_slot_but.
    exists s'. split; [exact E|]. split; [|split; [|split; [|split]]]; auto.
    + eapply weaken; [|exact C']. intros x Hx. destruct (Nat.eq_dec x w); [right; congruence|left; tauto].
    + intros x Hx Hox. rewrite F by (auto; congruence). cbn. destruct (Nat.eqb_spec x w); [congruence|auto].
Qed.

(** Equalizers. *)
Lemma eq_assign_cases P n s w v : consistent P n s -> w < n -> v < length (c_owner s) ->
  (owner s v = None \/ owner s v = Some w) /\ (exists s', eq_assign s w v = (s', None) /\ assign_result P n w v s s') \/
  (exists u, owner s v = Some u /\ u <> w) /\ eq_assign s w v = (set_slot s w v, Some RuntimeError).
Proof.
  intros C Hw Hv. unfold eq_assign. change (owner (set_slot s w v) v) with (owner s v).
  destruct (same (owner s v) (Some w)) eqn:Es.
  - apply same_spec in Es. left. split; [auto|]. eexists; split; [reflexivity|]. split; [|split; [|split; [|split]]]; auto.
    + apply consistent_add with (v := v); auto using set_slot_but. cbn. now rewrite Nat.eqb_refl.
    + cbn. now rewrite Nat.eqb_refl.
    + intros x Hx _. cbn. destruct (Nat.eqb_spec x w); [congruence|auto].
  - unfold eq_attach. change (owner (set_slot s w v) v) with (owner s v). destruct (owner s v) as [u|] eqn:Eo.
    + right. split; [|reflexivity]. exists u. split; [auto|]. intros ->. cbn in Es. rewrite Nat.eqb_refl in Es. discriminate.
    + left. split; [auto|]. eexists; split; [reflexivity|].
      assert (Hs : v < length (c_owner (set_slot s w v))) by exact Hv.
      split; [|split; [|split; [|split]]].
      * apply consistent_add with (v := v).
        -- apply set_owner_consistent; auto using set_slot_but. intros x _. change (owner (set_slot s w v) v) with (owner s v). congruence.
        -- cbn. now rewrite Nat.eqb_refl.
        -- rewrite owner_set by auto. now rewrite Nat.eqb_refl.
      * rewrite len_set by auto. auto.
      * cbn. now rewrite Nat.eqb_refl.
      * intros x Hx _. cbn. destruct (Nat.eqb_spec x w); [congruence|auto].
      * intros x Hx Hxv. rewrite owner_set by auto. destruct (Nat.eqb_spec x v); [congruence|auto].
Qed.
Lemma eq_attach_cases P n s v w : consistent P n s -> v < length (c_owner s) -> below n w ->
  (exists s', eq_attach s v w = (s', None) /\ consistent P n s') \/ eq_attach s v w = (s, Some RuntimeError).
Proof.
  intros C Hv Hw. unfold eq_attach. destruct (owner s v) eqn:Eo; [auto|]. left. eexists; split; [reflexivity|].
  apply set_owner_consistent; auto. congruence.
Qed.

(** * Histories *)
Definition ok (s : astate) : Prop := consistent (fun w => w < a_wfs s) (a_wfs s) (a_links s).

Lemma grow n s : consistent (fun w => w < n) n s -> consistent (fun w => w < n) (S n) s.
Proof. intros (C1 & C2 & C3). split; [|split]; auto; intros; apply Nat.lt_lt_succ_r; eauto. Qed.
Lemma new_consistent P n s w : consistent P n s -> below n w -> consistent P n (new_routine s w).
Proof.
  intros (C1 & C2 & C3) Hw. split; [|split]; auto.
  - intros x Hx. destruct (C1 x Hx) as (y & Y1 & Y2). exists y. split; [auto|]. rewrite owner_new.
    apply owner_lt in Y2 as Hy. destruct (Nat.eqb_spec y (length (c_owner s))); [lia|auto].
  - intros x y. rewrite owner_new. destruct (x =? _); [intros H; rewrite H in Hw; exact Hw|apply C3].
Qed.
Lemma below_exists s w : exists_wf s w = true -> below (a_wfs s) w.
Proof. destruct w; unfold exists_wf, below; [apply Nat.ltb_lt|auto]. Qed.

(** One assignment through the waveform, for all kinds of routines. *)
Lemma assign_cases k P n s w v : consistent P n s -> w < n -> v < length (c_owner s) ->
  (exists s', assign k s w v = (s', None) /\ assign_result P n w v s s') \/
  (k = Equ /\ (exists u, owner s v = Some u /\ u <> w) /\ assign k s w v = (set_slot s w v, Some RuntimeError)).
Proof.
  intros C Hw Hv. destruct k; cbn [assign]; [left; now apply sync_assign_consistent|left; now apply est_assign_consistent|].
  destruct (eq_assign_cases P n s w v C Hw Hv) as [[_ H]|H]; auto.
Qed.
Lemma attach_cases k P n s v w : consistent P n s -> v < length (c_owner s) -> below n w ->
  (exists s', attach k s v w = (s', None) /\ consistent P n s') \/
  (k = Equ /\ attach k s v w = (s, Some RuntimeError)).
Proof.
  intros C Hv Hw. destruct k; cbn [attach].
  - destruct (sync_attach_consistent 3 P n s v w C Hv Hw) as (s' & E & C' & _). left; eauto.
  - destruct (est_attach_consistent 1 P n s v w C Hv Hw) as (s' & E & C' & _). left. exists s'. split; [exact E|].
    eapply weaken; [|exact C']. intros x Hx; left; exact Hx.
  - destruct (eq_attach_cases P n s v w C Hv Hw) as [H|H]; auto.
Qed.

Lemma astep_ok k s o : ok s -> (k <> Equ -> snd (astep k s o) = None) /\ (snd (astep k s o) = None -> ok (fst (astep k s o))).
Proof.
  intros H. unfold ok in *. destruct o as [w|[v|]|w v|v w]; cbn [astep].
  - destruct (exists_wf s w) eqn:E; cbn [fst snd]; [|auto]. split; auto. intros _. apply new_consistent; auto. now apply below_exists.
  - destruct (exists_rt s v) eqn:E; cbn [fst snd]; [|auto]. apply Nat.ltb_lt in E.
    destruct (assign_cases k (fun w => w < a_wfs s) (S (a_wfs s)) (a_links s) (a_wfs s) v) as [(s' & Es & R & _)|(Ek & _ & Es)]; auto using grow.
    + rewrite Es. cbn. split; auto. intros _. eapply weaken; [|exact R]. intros x Hx; cbn in *; lia.
    + rewrite Es. cbn. split; [congruence|discriminate].
  - cbn [fst snd].
    assert (C : consistent (fun w => w < a_wfs s) (S (a_wfs s)) (new_routine (a_links s) (Some (a_wfs s)))).
    { apply new_consistent; auto using grow. cbn. lia. }
    destruct (assign_cases k (fun w => w < a_wfs s) (S (a_wfs s)) (new_routine (a_links s) (Some (a_wfs s))) (a_wfs s) (length (c_owner (a_links s)))) as [(s' & Es & R & _)|(Ek & (u & Hu & Hne) & _)]; auto.
    + rewrite len_new. lia.
    + rewrite Es. cbn. split; auto. intros _. eapply weaken; [|exact R]. intros x Hx; cbn in *; lia.
    + rewrite owner_new, Nat.eqb_refl in Hu. congruence.
  - destruct (exists_wf s (Some w) && exists_rt s v) eqn:E; cbn [fst snd]; [|auto].
    apply andb_prop in E as [E1 E2]. apply Nat.ltb_lt in E1, E2.
    destruct (assign_cases k (fun w => w < a_wfs s) (a_wfs s) (a_links s) w v) as [(s' & Es & R & _)|(Ek & _ & Es)]; auto.
    + rewrite Es. cbn. split; auto. intros _. eapply weaken; [|exact R]. intros x Hx; left; exact Hx.
    + rewrite Es. cbn. split; [congruence|discriminate].
  - destruct (exists_wf s w && exists_rt s v) eqn:E; cbn [fst snd]; [|auto].
    apply andb_prop in E as [E1 E2]. apply Nat.ltb_lt in E2. apply below_exists in E1.
    destruct (attach_cases k (fun w => w < a_wfs s) (a_wfs s) (a_links s) v w) as [(s' & Es & R)|(Ek & Es)]; auto.
    + rewrite Es. cbn. split; auto.
    + rewrite Es. cbn. split; [congruence|discriminate].
Qed.

Lemma arun_ok k l : forall s, ok s ->
  (k <> Equ -> Forall (fun e => e = None) (snd (arun k s l))) /\
  (Forall (fun e => e = None) (snd (arun k s l)) -> ok (fst (arun k s l))).
Proof.
  induction l as [|o l IH]; intros s H; cbn [arun]; [cbn; auto|].
  destruct (astep_ok k s o H) as [A1 A2]. destruct (astep k s o) as [s1 e]. cbn [fst snd] in *.
  split.
  - intros Hk. specialize (A1 Hk). specialize (A2 A1). destruct (IH s1 A2) as [I1 _]. specialize (I1 Hk).
    destruct (arun k s1 l) as [s2 es]. cbn in *. constructor; auto.
  - intros HF. assert (He : e = None) by (destruct (arun k s1 l); cbn in HF; now inversion HF).
    destruct (IH s1 (A2 He)) as [_ I2]. destruct (arun k s1 l) as [s2 es]. cbn in *. inversion HF; auto.
Qed.
Lemma ok_empty : ok a_empty.
Proof. split; [|split]; cbn; [lia|discriminate|]. intros v w. unfold owner; cbn. destruct v; discriminate. Qed.
