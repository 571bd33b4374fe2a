(** The pseudo random generator as a pair of linear recurrences. *)
From Coq Require Import List Arith Bool Lia.
From Verif Require Import Base BaseLemmas Fec_Model Fec_Spec.
Import ListNotations.

Fixpoint prg_iter (n : nat) (s : prg) : prg :=
  match n with 0 => s | S k => prg_iter k (fst (prg_step s)) end.

Lemma prg_iter_S n s : prg_iter (S n) s = fst (prg_step (prg_iter n s)).
Proof. revert s; induction n as [|n IH]; intros s; [reflexivity|]. cbn [prg_iter] in *; apply IH. Qed.

Lemma prg_sequence_iter n : forall s, fst (prg_sequence n s) = prg_iter n s.
Proof.
  induction n as [|n IH]; intros s; [reflexivity|]. cbn [prg_sequence prg_iter].
  rewrite <- IH. destruct (prg_step s) as [s1 b]; cbn [fst].
  destruct (prg_sequence n s1); auto.
Qed.

Lemma prg_sequence_nth n : forall s i, i < n ->
  nth i (snd (prg_sequence n s)) false = snd (prg_step (prg_iter i s)).
Proof.
  induction n as [|n IH]; intros s i Hi; [lia|]. cbn [prg_sequence].
  destruct i as [|i].
  - cbn [prg_iter]. destruct (prg_step s) as [s1 b]; cbn [fst]. destruct (prg_sequence n s1); auto.
  - cbn [prg_iter]. specialize (IH (fst (prg_step s)) i ltac:(lia)).
    destruct (prg_step s) as [s1 b]; cbn [fst] in *. destruct (prg_sequence n s1); cbn in *; auto.
Qed.
Lemma length_prg_sequence' n : forall s, length (snd (prg_sequence n s)) = n.
Proof.
  induction n as [|n IH]; intros s; [reflexivity|]. cbn [prg_sequence].
  destruct (prg_step s) as [s1 b]. specialize (IH s1). destruct (prg_sequence n s1); cbn in *; auto.
Qed.

Lemma nth_push q x i : q <> [] -> nth i (push q x) false = if i <? length q - 1 then nth (S i) q false
                                                else if i =? length q - 1 then x else false.
Proof.
  destruct q as [|y q]; [congruence|]. intros _. unfold push; cbn [tl length]. rewrite Nat.sub_succ, Nat.sub_0_r.
  destruct (Nat.ltb_spec i (length q)).
  - now rewrite app_nth1.
  - rewrite app_nth2 by auto. destruct (Nat.eqb_spec i (length q)) as [->|]; [rewrite Nat.sub_diag; auto|].
    destruct (i - length q) as [|k] eqn:E; [lia|]. cbn. now destruct k.
Qed.
Lemma length_push q x : q <> [] -> length (push q x) = length q.
Proof. destruct q; [congruence|]. unfold push; cbn. rewrite app_length; cbn; lia. Qed.

Section Streams.
  Variables (seed : bits).
  Let m := length seed.
  Hypothesis Hm : 4 <= m.
  Let s0 := mkPrg (true :: repeat false (m - 1)) seed.
  Let st n := prg_iter n s0.
  Let x1 n := nth 0 (q1 (st n)) false.
  Let x2 n := nth 0 (q2 (st n)) false.

  Lemma st_len n : length (q1 (st n)) = m /\ length (q2 (st n)) = m.
  Proof.
    induction n as [|n [I1 I2]]; unfold st in *.
    - cbn [prg_iter s0 q1 q2 length]. rewrite repeat_length; split; auto; lia.
    - rewrite prg_iter_S. unfold prg_step; cbn [fst q1 q2].
      rewrite !length_push; auto; intros E; rewrite E in *; cbn in *; lia.
  Qed.

  Lemma st_next n : st (S n) = fst (prg_step (st n)).
  Proof. apply prg_iter_S. Qed.

  Lemma st_window i : forall n, i < m ->
    nth i (q1 (st n)) false = x1 (n + i) /\ nth i (q2 (st n)) false = x2 (n + i).
  Proof.
    induction i as [|i IH]; intros n Hi.
    - rewrite Nat.add_0_r; auto.
    - replace (n + S i) with (S n + i) by lia.
      destruct (IH (S n) ltac:(lia)) as [<- <-]. destruct (st_len n) as [L1 L2].
      rewrite st_next; unfold prg_step; cbn [fst q1 q2].
      rewrite !nth_push by (intros E; rewrite E in *; cbn in *; lia).
      rewrite L1, L2. destruct (Nat.ltb_spec i (m - 1)); [auto|lia].
  Qed.

  Lemma st_step n : snd (prg_step (st n)) = xorb (x1 (n + m)) (x2 (n + m)) /\
    x1 (n + m) = xorb (x1 (n + (m - 3))) (x1 n) /\
    x2 (n + m) = xorb (xorb (x2 (n + (m - 3))) (x2 (n + (m - 2)))) (xorb (x2 (n + (m - 1))) (x1 (S n))).
  Proof.
    destruct (st_len n) as [L1 L2].
    destruct (st_window (m - 1) (S n) ltac:(lia)) as [W1 W2].
    rewrite st_next in W1, W2; unfold prg_step in W1, W2; cbn [fst q1 q2] in W1, W2.
    assert (Hq1 : q1 (st n) <> []) by (intros E; rewrite E in *; cbn in *; lia).
    assert (Hq2 : q2 (st n) <> []) by (intros E; rewrite E in *; cbn in *; lia).
    rewrite !nth_push in W1, W2 by auto. rewrite L1 in W1; rewrite L2 in W2.
    rewrite Nat.ltb_irrefl, Nat.eqb_refl in W1, W2.
    replace (S n + (m - 1)) with (n + m) in W1, W2 by lia.
    assert (E1 : x1 (n + m) = xorb (x1 (n + (m - 3))) (x1 n)).
    { rewrite <- W1. unfold last_, at_; rewrite L1.
      destruct (st_window (m - 3) n ltac:(lia)) as [-> _]. reflexivity. }
    assert (E2 : x2 (n + m) = xorb (xorb (x2 (n + (m - 3))) (x2 (n + (m - 2)))) (xorb (x2 (n + (m - 1))) (x1 (S n)))).
    { rewrite <- W2. unfold last_; rewrite L2.
      destruct (st_window (m - 3) n ltac:(lia)) as [_ ->].
      destruct (st_window (m - 2) n ltac:(lia)) as [_ ->].
      destruct (st_window (m - 1) n ltac:(lia)) as [_ ->].
      do 2 f_equal; f_equal. unfold x1. rewrite st_next; reflexivity. }
    split; [|auto]. rewrite <- W1, <- W2. unfold prg_step; reflexivity.
  Qed.

  Lemma prg_streams_exist : exists y1 y2, prg_streams seed y1 y2 /\
    forall k n, n < k -> nth n (snd (prg_sequence k (prg_iter (1600 - m) s0))) false =
       xorb (y1 (1600 - m + m + n)) (y2 (1600 - m + m + n)).
  Proof.
    exists x1, x2. split.
    - unfold prg_streams; fold m. split; [|split; [|split]].
      + intros i Hi. destruct (st_window i 0 Hi) as [W _]; cbn [plus] in W; rewrite <- W.
        unfold st; cbn [prg_iter s0 q1]. destruct i as [|i]; [reflexivity|].
        cbn. destruct (nth_in_or_default i (repeat false (m - 1)) false) as [H|H]; [now apply repeat_spec in H|auto].
      + intros i Hi. destruct (st_window i 0 Hi) as [_ W]; cbn [plus] in W; rewrite <- W. reflexivity.
      + intros n; apply st_step.
      + intros n; apply st_step.
    - intros k n Hn. rewrite prg_sequence_nth by auto.
      assert (E : prg_iter n (prg_iter (1600 - m) s0) = st (1600 - m + n)).
      { unfold st. clear Hn; induction n as [|n IH]; [rewrite Nat.add_0_r; auto|].
        rewrite prg_iter_S, IH, <- prg_iter_S. f_equal; lia. }
      rewrite E. destruct (st_step (1600 - m + n)) as [-> _].
      f_equal; f_equal; lia.
  Qed.
End Streams.

Lemma prg_init_streams seed s : prg_init seed = Ok s -> length seed <= 1600 ->
  exists x1 x2, prg_streams seed x1 x2 /\
    forall k n, n < k -> nth n (snd (prg_sequence k s)) false = xorb (x1 (1600 + n)) (x2 (1600 + n)).
Proof.
  unfold prg_init. intros H Hl. destruct (Nat.ltb_spec (length seed) 4); [discriminate|].
  assert (Hs : fst (prg_sequence (1600 - length seed) (mkPrg (true :: repeat false (length seed - 1)) seed)) = s)
    by congruence.
  rewrite prg_sequence_iter in Hs. subst s.
  destruct (prg_streams_exist seed ltac:(lia)) as (x1 & x2 & H1 & H2).
  exists x1, x2; split; auto. intros k n Hn. rewrite (H2 k n Hn).
  f_equal; f_equal; lia.
Qed.
