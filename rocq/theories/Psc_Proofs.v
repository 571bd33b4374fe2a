From Coq Require Import List Arith Bool Lia.
From Verif Require Import Base Psc_Model Psc_Spec.
Import ListNotations.
Local Open Scope nat_scope.

Lemma mapM_ok {A B} (f : A -> result B) l r : mapM f l = Ok r -> length r = length l /\ forall i x, nth_error l i = Some x -> exists y, nth_error r i = Some y /\ f x = Ok y.
Proof.
  revert r. induction l as [|a l IH]; intros r H; cbn in H; [injection H as <-; split; [reflexivity|intros [|i] x K; discriminate]|].
  destruct (f a) as [b|] eqn:E; [|discriminate]. cbn in H. destruct (mapM f l) as [bs|] eqn:E2; [|discriminate]. injection H as <-.
  destruct (IH bs eq_refl) as [L N]. split; [cbn; lia|]. intros [|i] x K; cbn in K |- *; [injection K as <-; eauto|eauto].
Qed.
Lemma mapM_total {A B} (f : A -> result B) l : (forall x, In x l -> exists y, f x = Ok y) -> exists r, mapM f l = Ok r.
Proof.
  induction l as [|a l IH]; intro H; [eexists; reflexivity|]. destruct (H a (or_introl eq_refl)) as [b E]. destruct IH as [r R]; [intros x I; apply H; right; exact I|]. cbn. rewrite E, R. eexists. reflexivity.
Qed.
Lemma mapM_ext {A B} (f g : A -> result B) l : (forall x, In x l -> f x = g x) -> mapM f l = mapM g l.
Proof. induction l as [|a l IH]; intro H; [reflexivity|]. cbn. rewrite H by (left; reflexivity). rewrite IH; [reflexivity|]. intros; apply H; right; assumption. Qed.

Lemma mem_in d l : mem d l = true <-> In d l.
Proof. unfold mem. rewrite existsb_exists. split; [intros [x [I E]]; apply Nat.eqb_eq in E; subst; exact I|intro I; exists d; split; [exact I|apply Nat.eqb_refl]]. Qed.
Lemma mem_not d l : ~ In d l -> mem d l = false.
Proof. intro N. destruct (mem d l) eqn:E; [|reflexivity]. exfalso. apply N. apply mem_in. exact E. Qed.

Lemma nth_combine {A B} (l : list A) (m : list B) i : nth_error (combine l m) i = match nth_error l i, nth_error m i with Some a, Some b => Some (a, b) | _, _ => None end.
Proof. revert m i. induction l as [|a l IH]; intros [|b m] [|i]; cbn; try reflexivity; [destruct (nth_error l i); reflexivity|apply IH]. Qed.
Lemma nth_repeat {A} (a : A) n i : i < n -> nth_error (repeat a n) i = Some a.
Proof. revert i. induction n as [|n IH]; intros [|i] H; cbn; try lia; [reflexivity|apply IH; lia]. Qed.
Lemma combine_repeat {A B} (l : list A) (b : B) : combine l (repeat b (length l)) = map (fun a => (a, b)) l.
Proof. induction l as [|a l IH]; cbn; [reflexivity|rewrite IH; reflexivity]. Qed.

Lemma nodup_front {A} (l m : list A) : NoDup (l ++ m) -> NoDup l.
Proof.
  induction l as [|a l IH]; intro H; [constructor|]. cbn in H. inversion_clear H as [|? ? H1 H2]. constructor; [intro I; apply H1; apply in_or_app; left; exact I|apply IH; exact H2].
Qed.

Section Scenario.
Context {S St : Type}.
Variable produce : nat -> option St -> result S.
Notation each := (transmit_each S St produce).

Lemma each_keeps l w : executions (fst (each l w)) = executions w /\ recordings (fst (each l w)) = recordings w.
Proof.
  revert w. induction l as [|[d s] l IH]; intro w; cbn; [auto|]. destruct (produce d s) as [t|e]; [|cbn; auto].
  specialize (IH (upload S w d t)). destruct (each l (upload S w d t)) as [w' r]. cbn in *. exact IH.
Qed.
Lemma each_untouched l w e : ~ In e (map fst l) -> uploads (fst (each l w)) e = uploads w e.
Proof.
  revert w. induction l as [|[d s] l IH]; intros w N; cbn; [auto|]. destruct (produce d s) as [t|x]; [|reflexivity].
  specialize (IH (upload S w d t)). destruct (each l (upload S w d t)) as [w' r]. cbn in *. rewrite IH by tauto. unfold put. destruct (Nat.eqb_spec e d); [exfalso; apply N; left; congruence|reflexivity].
Qed.
Lemma each_total l w : (forall x, In x l -> exists t, produce (fst x) (snd x) = Ok t) -> exists ts, snd (each l w) = Ok ts.
Proof.
  revert w. induction l as [|[d s] l IH]; intros w H; cbn; [eauto|]. destruct (H (d, s) (or_introl eq_refl)) as [t E]. cbn in E. rewrite E.
  destruct (IH (upload S w d t)) as [ts T]; [intros; apply H; right; assumption|]. destruct (each l (upload S w d t)) as [w' r]. cbn in *. rewrite T. eauto.
Qed.
Lemma each_ok l w ts : NoDup (map fst l) -> snd (each l w) = Ok ts -> length ts = length l /\
  forall i d s, nth_error l i = Some (d, s) -> exists t, nth_error ts i = Some t /\ produce d s = Ok t /\ uploads (fst (each l w)) d = Some t.
Proof.
  revert w ts. induction l as [|[d s] l IH]; intros w ts N H; cbn in H; [injection H as <-; split; [reflexivity|intros [|i] x y K; discriminate]|].
  inversion_clear N as [|? ? N1 N2]. cbn [transmit_each]. destruct (produce d s) as [t|e] eqn:E; [|discriminate].
  pose proof (each_untouched l (upload S w d t) d N1) as U. specialize (IH (upload S w d t)). destruct (each l (upload S w d t)) as [w' r]. cbn in *.
  destruct r as [ts'|]; [|discriminate]. injection H as <-. destruct (IH ts' N2 eq_refl) as [L K]. split; [cbn; lia|].
  intros [|i] x y Hn; cbn in Hn |- *; [injection Hn as <- <-|apply K; exact Hn]. exists t. split; [reflexivity|]. split; [exact E|]. rewrite U. unfold put. rewrite Nat.eqb_refl. reflexivity.
Qed.
Lemma each_first_failure l1 d s l2 w e : (forall x, In x l1 -> exists t, produce (fst x) (snd x) = Ok t) -> produce d s = Raise e ->
  snd (each (l1 ++ (d, s) :: l2) w) = Raise e /\ fst (each (l1 ++ (d, s) :: l2) w) = fst (each l1 w).
Proof.
  revert w. induction l1 as [|[a b] l1 IH]; intros w H E; cbn; [rewrite E; auto|]. destruct (H (a, b) (or_introl eq_refl)) as [t T]. cbn in T. rewrite T.
  destruct (IH (upload S w a t)) as [K1 K2]; [intros; apply H; right; assumption|exact E|].
  destruct (each (l1 ++ (d, s) :: l2) (upload S w a t)) as [w' r]; destruct (each l1 (upload S w a t)) as [w'' r']; cbn in *. subst. auto.
Qed.
End Scenario.

Lemma uploads_fold {S} (ts : list S) ds w : length ts = length ds -> NoDup ds ->
  let w' := fold_left (fun w x => upload S w (snd x) (fst x)) (combine ts ds) w in
  executions w' = executions w /\ recordings w' = recordings w /\ (forall e, ~ In e ds -> uploads w' e = uploads w e) /\
  (forall i d t, nth_error ds i = Some d -> nth_error ts i = Some t -> uploads w' d = Some t).
Proof.
  revert ds w. induction ts as [|t ts IH]; intros [|d ds] w L N; cbn in L; try lia; cbn [combine fold_left fst snd].
  - repeat split; auto. intros [|i] d t H; discriminate.
  - inversion_clear N as [|? ? N1 N2]. destruct (IH ds (upload S w d t) ltac:(lia) N2) as (E & R & U & K). cbn in *. split; [exact E|]. split; [exact R|]. split.
    + intros e H. rewrite U by tauto. cbn. unfold put. destruct (Nat.eqb_spec e d); [exfalso; apply H; auto|reflexivity].
    + intros [|i] x y Hx Hy; cbn in Hx, Hy; [injection Hx as <-; injection Hy as <-|apply (K i x y Hx Hy)]. rewrite U by exact N1. cbn. unfold put. rewrite Nat.eqb_refl. reflexivity.
Qed.

Lemma usrp_devices_nodup l : NoDup (sys_devices (usrp_run l)).
Proof.
  unfold usrp_run. assert (H : NoDup (sys_devices empty_system)) by constructor. revert H. generalize empty_system. induction l as [|o l IH]; intros s H; cbn [fold_left]; [exact H|]. apply IH. destruct o as [d|b]; cbn; [|exact H].
  unfold usrp_add, scenario_add. cbn. destruct (existsb (Nat.eqb d) (sys_devices s)) eqn:E; [exact H|]. destruct (sys_default s); cbn; [|exact H].
  apply NoDup_rev in H. rewrite <- (rev_involutive (sys_devices s ++ [d])). apply NoDup_rev. rewrite rev_app_distr. cbn. constructor; [|exact H].
  intro I. apply in_rev in I. apply mem_in in I. unfold mem in I. congruence.
Qed.
