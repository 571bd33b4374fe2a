(** Lemmas about the list primitives of [Base]. *)
From Coq Require Import List Arith Lia Bool ZArith Permutation.
From Verif Require Import Base.
Import ListNotations.

Ltac inv H := inversion H; subst; clear H.

Lemma bind_ok {A B} (r : result A) (f : A -> result B) b :
  bind r f = Ok b -> exists a, r = Ok a /\ f a = Ok b.
Proof. destruct r; simpl; intros H; [eauto|discriminate]. Qed.

Ltac inv_bind H :=
  let a := fresh "v" in let Ha := fresh "E" in
  apply bind_ok in H; destruct H as (a & Ha & H).

Lemma ceil_div_spec a b : 0 < b -> a <= ceil_div a b * b /\ (forall n, a <= n * b -> ceil_div a b <= n).
Proof.
  intros Hb. unfold ceil_div. split.
  - pose proof (Nat.div_mod_eq (a + (b - 1)) b). pose proof (Nat.mod_upper_bound (a + (b-1)) b). nia.
  - intros n Hn. enough ((a + (b - 1)) / b < S n) by lia.
    apply Nat.div_lt_upper_bound; nia.
Qed.

Lemma ceil_div_exact n b : 0 < b -> ceil_div (n * b) b = n.
Proof.
  intros Hb. unfold ceil_div.
  replace (n * b + (b - 1)) with ((b - 1) + n * b) by lia.
  rewrite Nat.div_add by lia. rewrite Nat.div_small by lia. lia.
Qed.

Lemma length_slice {A} a b (l : list A) : length (slice a b l) = min (b - a) (length l - a).
Proof. unfold slice. rewrite firstn_length, skipn_length. lia. Qed.

Lemma slice_0 {A} b (l : list A) : slice 0 b l = firstn b l.
Proof. unfold slice. rewrite Nat.sub_0_r. reflexivity. Qed.

Lemma slice_app_l {A} a b (l1 l2 : list A) : b <= length l1 -> slice a b (l1 ++ l2) = slice a b l1.
Proof.
  intros H. unfold slice. rewrite skipn_app, firstn_app.
  rewrite skipn_length. destruct (le_lt_dec a b).
  - replace (b - a - (length l1 - a)) with 0 by lia. simpl. now rewrite app_nil_r.
  - replace (b - a) with 0 by lia. reflexivity.
Qed.

Lemma skipn_skipn' {A} a b (l : list A) : skipn a (skipn b l) = skipn (b + a) l.
Proof. revert l. induction b; intros l; simpl; auto. destruct l; simpl; auto. now rewrite skipn_nil. Qed.

Lemma slice_skipn {A} k a b (l : list A) : slice a b (skipn k l) = slice (k + a) (k + b) l.
Proof. unfold slice. rewrite skipn_skipn'. f_equal. lia. Qed.

Lemma nth_error_skipn {A} k i (l : list A) : nth_error (skipn k l) i = nth_error l (k + i).
Proof. revert l. induction k; intros l; simpl; auto. destruct l; simpl; auto. now destruct i. Qed.

Lemma nth_error_firstn {A} k i (l : list A) :
  nth_error (firstn k l) i = if i <? k then nth_error l i else None.
Proof.
  revert i l. induction k; intros i l; simpl.
  - now destruct i.
  - destruct l; simpl.
    + destruct i; simpl; [reflexivity|]. now destruct (S i <? S k).
    + destruct i; simpl; auto. rewrite IHk. reflexivity.
Qed.

Lemma nth_error_slice {A} a b i (l : list A) :
  nth_error (slice a b l) i = if i <? b - a then nth_error l (a + i) else None.
Proof. unfold slice. rewrite nth_error_firstn, nth_error_skipn. reflexivity. Qed.

Lemma nth_error_ext {A} (l1 l2 : list A) : (forall i, nth_error l1 i = nth_error l2 i) -> l1 = l2.
Proof.
  revert l2. induction l1 as [|x l1 IH]; intros [|y l2] H; auto.
  - specialize (H 0); discriminate.
  - specialize (H 0); discriminate.
  - pose proof (H 0) as H0. simpl in H0. inv H0. f_equal. apply IH. intros i. exact (H (S i)).
Qed.

Lemma nth_error_map' {A B} (f : A -> B) l i : nth_error (map f l) i = option_map f (nth_error l i).
Proof. revert i. induction l; intros [|i]; simpl; auto. Qed.

Lemma nth_error_seq a n i : nth_error (seq a n) i = if i <? n then Some (a + i) else None.
Proof.
  revert a i. induction n; intros a i; simpl.
  - now destruct i.
  - destruct i; simpl.
    + now rewrite Nat.add_0_r.
    + rewrite IHn. replace (S i <? S n) with (i <? n) by reflexivity.
      destruct (i <? n); auto. f_equal. lia.
Qed.

Lemma length_blocks_of {A} n k (l : list A) : length (blocks_of n k l) = n.
Proof. unfold blocks_of. now rewrite map_length, seq_length. Qed.

Lemma blocks_of_S {A} n k (l : list A) : blocks_of (S n) k l = firstn k l :: blocks_of n k (skipn k l).
Proof.
  unfold blocks_of. simpl. f_equal.
  - rewrite slice_0. f_equal. lia.
  - rewrite <- seq_shift, map_map. apply map_ext. intros i. rewrite slice_skipn.
    f_equal; simpl; lia.
Qed.

Lemma blocks_of_all_len {A} n k (l : list A) :
  n * k <= length l -> Forall (fun b => length b = k) (blocks_of n k l).
Proof.
  revert l. induction n; intros l H.
  - constructor.
  - rewrite blocks_of_S. constructor.
    + rewrite firstn_length. simpl in H. lia.
    + apply IHn. rewrite skipn_length. simpl in H. lia.
Qed.

Lemma concat_blocks_of {A} n k (l : list A) : concat (blocks_of n k l) = firstn (n * k) l.
Proof.
  revert l. induction n; intros l.
  - reflexivity.
  - rewrite blocks_of_S. simpl. rewrite IHn.
    rewrite <- (firstn_skipn k l) at 3. rewrite firstn_app.
    rewrite firstn_firstn. rewrite firstn_length.
    replace (Nat.min (k + n * k) k) with k by lia. f_equal.
    destruct (le_lt_dec k (length l)).
    + f_equal. lia.
    + rewrite skipn_all2 by lia. now rewrite !firstn_nil.
Qed.

Lemma blocks_of_app {A} n m k (l1 l2 : list A) :
  length l1 = n * k -> blocks_of (n + m) k (l1 ++ l2) = blocks_of n k l1 ++ blocks_of m k l2.
Proof.
  revert l1. induction n; intros l1 H; cbn [plus].
  - destruct l1; [reflexivity|discriminate].
  - rewrite !blocks_of_S. cbn [app]. f_equal.
    + rewrite firstn_app. simpl in H. replace (k - length l1) with 0 by lia. now rewrite firstn_O, app_nil_r.
    + rewrite skipn_app. simpl in H. replace (k - length l1) with 0 by lia. simpl.
      apply IHn. rewrite skipn_length. lia.
Qed.

Lemma blocks_of_concat {A} k (bs : list (list A)) :
  Forall (fun b => length b = k) bs -> blocks_of (length bs) k (concat bs) = bs.
Proof.
  induction bs as [|b bs IH]; intros H; simpl length.
  - reflexivity.
  - inv H. rewrite blocks_of_S. simpl. f_equal.
    + rewrite firstn_app. rewrite Nat.sub_diag. simpl. rewrite app_nil_r. apply firstn_all.
    + rewrite skipn_app, Nat.sub_diag, skipn_all. simpl. auto.
Qed.

Lemma length_concat_const {A} k (bs : list (list A)) :
  Forall (fun b => length b = k) bs -> length (concat bs) = length bs * k.
Proof. induction 1; simpl; auto. rewrite app_length. lia. Qed.

Lemma mapM_ok_map {A B} (f : A -> result B) (g : A -> B) l :
  (forall x, In x l -> f x = Ok (g x)) -> mapM f l = Ok (map g l).
Proof.
  induction l; simpl; intros H; auto.
  rewrite (H a) by auto. simpl. rewrite IHl by auto. reflexivity.
Qed.

Lemma mapM_length {A B} (f : A -> result B) l ys : mapM f l = Ok ys -> length ys = length l.
Proof.
  revert ys. induction l; simpl; intros ys H; [inv H; auto|].
  inv_bind H. inv_bind H. inv H. simpl. f_equal. auto.
Qed.

Lemma mapM_nth {A B} (f : A -> result B) l ys : mapM f l = Ok ys ->
  forall i x, nth_error l i = Some x -> exists y, f x = Ok y /\ nth_error ys i = Some y.
Proof.
  revert ys. induction l; simpl; intros ys H i x Hi; [destruct i; discriminate|].
  inv_bind H. inv_bind H. inv H. destruct i; simpl in *.
  - inv Hi. eauto.
  - eauto.
Qed.

Lemma Forall2_len {A B} (R : A -> B -> Prop) l1 l2 : Forall2 R l1 l2 -> length l1 = length l2.
Proof. induction 1; simpl; auto. Qed.
