(** Lemmas about the evaluators. *)
From Coq Require Import List Arith Bool ZArith QArith Lia.
From Verif Require Import Base BaseLemmas Frames_Proofs Eval_Model Eval_Spec.
Import ListNotations.
Open Scope nat_scope.

(** *** Bit errors *)
Lemma pad_length n x : length x <= n -> length (pad n x) = n.
Proof. intro H. unfold pad. rewrite app_length, repeat_length. lia. Qed.
Lemma pad_nth n x i : nth i (pad n x) false = bit x i.
Proof.
  unfold pad, bit. destruct (Nat.lt_ge_cases i (length x)) as [H|H].
  - rewrite app_nth1 by exact H. reflexivity.
  - rewrite app_nth2 by exact H. rewrite nth_repeat. symmetry. apply nth_overflow, H.
Qed.
Lemma bit_errors_length tx rx : length (bit_errors tx rx) = Nat.max (length tx) (length rx).
Proof. unfold bit_errors. rewrite map_length, combine_length, !pad_length by lia. lia. Qed.
Lemma nth_map_combine {B D} (f : B * D -> bool) (x : list B) (y : list D) b d e : forall i,
  i < length x -> i < length y -> nth i (map f (combine x y)) e = f (nth i x b, nth i y d).
Proof.
  revert y. induction x as [|u x IH]; intros [|v y] i Hx Hy; cbn in Hx, Hy; try lia.
  destruct i; [reflexivity|]. cbn. apply IH; lia.
Qed.
Lemma bit_errors_nth tx rx i : nth i (bit_errors tx rx) false = xorb (bit tx i) (bit rx i).
Proof.
  destruct (Nat.lt_ge_cases i (Nat.max (length tx) (length rx))) as [H|H].
  - unfold bit_errors. rewrite (nth_map_combine _ _ _ false false) by (rewrite pad_length; lia).
    rewrite !pad_nth. reflexivity.
  - rewrite nth_overflow by (rewrite bit_errors_length; exact H). unfold bit. rewrite !nth_overflow by lia. reflexivity.
Qed.
Lemma count_app a b : count (a ++ b) = count a + count b.
Proof. unfold count. rewrite filter_app, app_length. reflexivity. Qed.
Lemma count_firstn l : forall n, n <= length l -> count (firstn (S n) l) = count (firstn n l) + (if nth n l false then 1 else 0).
Proof.
  induction l as [|x l IH]; intros n H.
  - destruct n; reflexivity.
  - destruct n as [|n].
    + cbn. destruct x; reflexivity.
    + cbn in H. specialize (IH n ltac:(lia)). change (firstn (S (S n)) (x :: l)) with (x :: firstn (S n) l).
      change (firstn (S n) (x :: l)) with (x :: firstn n l). cbn [nth]. unfold count in *. cbn [filter].
      destruct x; cbn [length]; rewrite IH; lia.
Qed.
Lemma count_distance l x y : (forall i, nth i l false = xorb (bit x i) (bit y i)) -> forall n, n <= length l ->
  count (firstn n l) = distance n x y.
Proof.
  intros H. induction n as [|n IH]; intro L; [reflexivity|]. rewrite count_firstn by lia. rewrite IH by lia.
  cbn [distance]. rewrite H. destruct (bit x n), (bit y n); reflexivity.
Qed.
Lemma bit_errors_count tx rx : count (bit_errors tx rx) = distance (Nat.max (length tx) (length rx)) tx rx.
Proof.
  rewrite <- (bit_errors_length tx rx). rewrite <- (firstn_all (bit_errors tx rx)) at 1.
  apply count_distance; [apply bit_errors_nth|lia].
Qed.
Lemma count_zero l : count l = 0 <-> (forall i, nth i l false = false).
Proof.
  induction l as [|x l IH]; split; intro H.
  - intros [|i]; reflexivity.
  - reflexivity.
  - unfold count in *. cbn [filter] in H. destruct x; [discriminate|]. intros [|i]; [reflexivity|]. cbn. apply IH, H.
  - pose proof (H 0) as H0. cbn in H0. subst x. unfold count. cbn [filter]. apply IH. intro i. exact (H (S i)).
Qed.
Lemma count_le l : count l <= length l.
Proof. unfold count. induction l as [|x l IH]; cbn; [lia|]. destruct x; cbn; lia. Qed.
Lemma count_all l : count l = length l <-> (forall i, i < length l -> nth i l false = true).
Proof.
  induction l as [|x l IH]; split; intro H.
  - intros i Hi. cbn in Hi. lia.
  - reflexivity.
  - pose proof (count_le l) as C. unfold count in *. cbn [filter] in H. destruct x; cbn [length] in H; [|lia].
    intros [|i] Hi; [reflexivity|]. cbn. apply IH; cbn in Hi; lia.
  - pose proof (H 0) as H0. cbn in H0. rewrite H0 by lia. unfold count. cbn [filter length]. f_equal. apply IH.
    intros i Hi. apply (H (S i)). cbn. lia.
Qed.

(** *** Block errors *)

Lemma total_whole k fs : whole k fs -> exists n, length (total fs) = n * k.
Proof.
  induction 1 as [|f fs [_ [n Hn]] _ [m Hm]]; [exists 0; reflexivity|].
  exists (n + m). unfold total in *. cbn [map concat]. rewrite app_length, Hn, Hm. lia.
Qed.
Lemma count_blocks_spec k fs : 0 < k -> whole k fs -> count_blocks fs = Ok (length (total fs) / k).
Proof.
  intros Hk. induction 1 as [|f fs [Hf [n Hn]] Hfs IH].
  - cbn. rewrite Nat.div_0_l by lia. reflexivity.
  - cbn [count_blocks]. rewrite Hf, IH. destruct (Nat.eqb_spec k 0); [lia|]. cbn [bind].
    destruct (total_whole k fs Hfs) as [m Hm]. change (total (f :: fs)) with (f_bits f ++ total fs).
    rewrite app_length, Hn, Hm, <- Nat.mul_add_distr_r, !Nat.div_mul by lia. reflexivity.
Qed.
Lemma combine_app' {B D} (x1 x2 : list B) (y1 y2 : list D) : length x1 = length y1 ->
  combine (x1 ++ x2) (y1 ++ y2) = combine x1 y1 ++ combine x2 y2.
Proof.
  revert y1. induction x1 as [|x x1 IH]; intros [|y y1] H; cbn in H; try lia; [reflexivity|].
  cbn. f_equal. apply IH. lia.
Qed.
Definition diffs (k : nat) (tx rx : bits) : list bool :=
  map (fun '(a, b) => differ a b) (combine (blocks_of (length tx / k) k tx) (blocks_of (length rx / k) k rx)).
Lemma diffs_app k n t r tx rx : 0 < k -> length t = n * k -> length r = n * k ->
  diffs k (t ++ tx) (r ++ rx) = diffs k t r ++ diffs k tx rx.
Proof.
  intros Hk Ht Hr. unfold diffs. rewrite !app_length, Ht, Hr.
  rewrite !(Nat.add_comm (n * k)), !Nat.div_add, !Nat.div_mul, !(Nat.add_comm _ n) by lia.
  rewrite !blocks_of_app by assumption. rewrite combine_app', map_app by (rewrite !length_blocks_of; reflexivity).
  reflexivity.
Qed.
Lemma length_diffs k tx rx : length (diffs k tx rx) = Nat.min (length tx / k) (length rx / k).
Proof. unfold diffs. rewrite map_length, combine_length, !length_blocks_of. reflexivity. Qed.
Lemma assign_prefix done v m : length v <= m ->
  assign (done ++ repeat true m) (length done) (length v) v = Ok ((done ++ v) ++ repeat true (m - length v)).
Proof.
  intro H. unfold assign. rewrite app_length, repeat_length.
  replace (Nat.min (length done + length v) (length done + m) - length done) with (length v) by lia.
  rewrite Nat.eqb_refl, firstn_app, firstn_all, Nat.sub_diag. cbn [firstn]. rewrite app_nil_r.
  rewrite skipn_app, skipn_all2 by lia. cbn [app]. rewrite <- app_assoc. do 3 f_equal.
  replace (length done + length v - length done) with (length v) by lia.
  replace m with (length v + (m - length v)) at 1 by lia. rewrite repeat_app, skipn_app, repeat_length, Nat.sub_diag.
  rewrite skipn_all2 by (rewrite repeat_length; lia). reflexivity.
Qed.
Lemma reshape_spec k f n : 0 < k -> f_block f = k -> length (f_bits f) = n * k -> reshape f = Ok (blocks_of n k (f_bits f)).
Proof.
  intros Hk Hf Hn. unfold reshape. rewrite Hf, Hn, Nat.mod_mul, Nat.div_mul by lia. reflexivity.
Qed.
Lemma compare_spec k : 0 < k -> forall tx rx done m,
  whole k tx -> whole k rx ->
  (forall i t r, nth_error tx i = Some t -> nth_error rx i = Some r -> length (f_bits t) = length (f_bits r)) ->
  Nat.min (length (total tx) / k) (length (total rx) / k) <= m ->
  compare_blocks tx rx (length done) (done ++ repeat true m)
  = Ok (done ++ diffs k (total tx) (total rx) ++ repeat true (m - length (diffs k (total tx) (total rx)))).
Proof.
  intros Hk. induction tx as [|t tx IH]; intros rx done m WT WR HM Hm.
  - cbn [compare_blocks total map concat]. unfold diffs. cbn [length]. rewrite Nat.div_0_l by lia.
    cbn. rewrite Nat.sub_0_r. destruct rx; reflexivity.
  - destruct rx as [|r rx].
    + cbn [compare_blocks]. assert (E : diffs k (total (t :: tx)) (total []) = []).
      { apply length_zero_iff_nil. rewrite length_diffs. cbn [total map concat length]. rewrite Nat.div_0_l by lia. lia. }
      rewrite E. cbn. rewrite Nat.sub_0_r. reflexivity.
    + apply Forall_cons_iff in WT. destruct WT as [[Bt [n Hn]] WT].
      apply Forall_cons_iff in WR. destruct WR as [[Br [n' Hn']] WR].
      assert (n' = n) by (specialize (HM 0 t r eq_refl eq_refl); nia). subst n'.
      change (total (t :: tx)) with (f_bits t ++ total tx) in *. change (total (r :: rx)) with (f_bits r ++ total rx) in *.
      rewrite (diffs_app k n) by assumption.
      assert (Ld : length (diffs k (f_bits t) (f_bits r)) = n) by (rewrite length_diffs, Hn, Hn', Nat.div_mul; lia).
      destruct (total_whole k tx WT) as [a Ha]. destruct (total_whole k rx WR) as [b Hb].
      rewrite !app_length, Hn, Hn', Ha, Hb, <- !Nat.mul_add_distr_r, !Nat.div_mul in Hm by lia.
      cbn [compare_blocks]. rewrite (reshape_spec k t n), (reshape_spec k r n) by assumption. cbn [bind].
      unfold any_ne. rewrite Bt, Br, Nat.eqb_refl. cbn [orb negb]. rewrite !length_blocks_of, Nat.eqb_refl. cbn [bind].
      replace (map (fun '(a, b) => differ a b) (combine (blocks_of n k (f_bits t)) (blocks_of n k (f_bits r))))
        with (diffs k (f_bits t) (f_bits r)) by (unfold diffs; rewrite Hn, Hn', Nat.div_mul by lia; reflexivity).
      rewrite Nat.max_id.
      pose proof (assign_prefix done (diffs k (f_bits t) (f_bits r)) m ltac:(lia)) as HA. rewrite Ld in HA.
      rewrite HA. cbn [bind].
      replace (length done + n) with (length (done ++ diffs k (f_bits t) (f_bits r))) by (rewrite app_length; lia).
      rewrite IH; [|exact WT|exact WR| |].
      * rewrite <- !app_assoc. do 4 f_equal. rewrite app_length. f_equal. lia.
      * intros i t' r' Ht Hr. exact (HM (S i) t' r' Ht Hr).
      * rewrite Ha, Hb, !Nat.div_mul by lia. lia.
Qed.

Lemma xor_exists a : forall b, length a = length b ->
  existsb (fun '(x, y) => xorb x y) (combine a b) = true <-> a <> b.
Proof.
  induction a as [|x a IH]; intros [|y b] L; cbn in L; try lia.
  - cbn. split; [discriminate|congruence].
  - cbn [combine existsb]. rewrite orb_true_iff, IH by lia.
    destruct x, y; cbn; split; intro H; try congruence; try tauto; try (left; reflexivity);
      try (intro E; injection E as E; destruct H as [H|H]; [discriminate|contradiction]);
      try (right; congruence).
Qed.
Lemma differ_spec a b : length a = length b -> differ a b = true <-> a <> b.
Proof. intro L. unfold differ. rewrite L, Nat.eqb_refl. apply xor_exists, L. Qed.

Lemma nth_diffs k tx rx j : j < Nat.min (length tx / k) (length rx / k) ->
  nth_error (diffs k tx rx) j = Some (differ (kth_block k j tx) (kth_block k j rx)).
Proof.
  intro H. unfold diffs. rewrite nth_error_map'.
  assert (E : nth_error (combine (blocks_of (length tx / k) k tx) (blocks_of (length rx / k) k rx)) j
              = Some (kth_block k j tx, kth_block k j rx)).
  { set (n := length tx / k) in *. set (m := length rx / k) in *.
    assert (G : forall (x : list bits) (y : list bits) u v, nth_error x j = Some u -> nth_error y j = Some v ->
       nth_error (combine x y) j = Some (u, v)).
    { clear. induction j as [|j IH]; intros [|u x] [|v y] a b Hx Hy; try discriminate; cbn in *.
      - congruence. - apply IH; assumption. }
    assert (B : forall n (l : bits), j < n -> nth_error (blocks_of n k l) j = Some (kth_block k j l)).
    { clear. intros n l H. unfold blocks_of, kth_block. rewrite nth_error_map', nth_error_seq.
      destruct (Nat.ltb_spec j n); [|lia]. cbn [option_map Nat.add]. unfold slice. do 3 f_equal. lia. }
    apply G; apply B; lia. }
  rewrite E. reflexivity.
Qed.
Lemma kth_block_length k j (x : bits) : 0 < k -> j < length x / k -> length (kth_block k j x) = k.
Proof.
  intros Hk H. unfold kth_block. rewrite firstn_length, skipn_length.
  pose proof (Nat.div_mod_eq (length x) k). nia.
Qed.

(** *** Frame errors *)
Lemma array_equiv_spec a b : length a = length b -> array_equiv a b = true <-> a = b.
Proof.
  intro L. unfold array_equiv. rewrite L, Nat.eqb_refl. revert b L.
  induction a as [|x a IH]; intros [|y b] L; cbn in L; try lia; [tauto|].
  cbn [combine forallb]. rewrite andb_true_iff, IH by lia. rewrite eqb_true_iff. split.
  - intros [-> ->]. reflexivity.
  - intro H. injection H as -> ->. tauto.
Qed.
Lemma set_nth_length l : forall i x, length (set_nth l i x) = length l.
Proof. induction l as [|y l IH]; intros [|i] x; cbn; auto. Qed.
Lemma set_nth_spec l : forall i x j, nth_error (set_nth l i x) j
  = if (j =? i) && (i <? length l) then Some x else nth_error l j.
Proof.
  induction l as [|y l IH]; intros i x j.
  - cbn. rewrite andb_comm. destruct i; reflexivity.
  - destruct i as [|i], j as [|j]; cbn [set_nth nth_error Nat.eqb length andb]; try reflexivity. apply IH.
Qed.
Lemma compare_frames_spec tx : forall rx f errs, f + Nat.min (length tx) (length rx) <= length errs ->
  length (compare_frames tx rx f errs) = length errs /\
  forall j, nth_error (compare_frames tx rx f errs) j =
    if (f <=? j) then match nth_error tx (j - f), nth_error rx (j - f) with
      | Some t, Some r => Some (negb (array_equiv t r))
      | _, _ => nth_error errs j end
    else nth_error errs j.
Proof.
  induction tx as [|t tx IH]; intros rx f errs H.
  - cbn [compare_frames]. split; [reflexivity|]. intro j. destruct (f <=? j); [|reflexivity]. destruct (j - f); reflexivity.
  - destruct rx as [|r rx].
    + cbn [compare_frames]. split; [reflexivity|]. intro j. destruct (f <=? j); [|reflexivity].
      destruct (j - f); cbn; [reflexivity|]. destruct (nth_error tx n); reflexivity.
    + cbn [compare_frames]. cbn [length Nat.min] in H.
      destruct (IH rx (S f) (set_nth errs f (negb (array_equiv t r)))) as [L P]; [rewrite set_nth_length; lia|].
      rewrite set_nth_length in L. split; [exact L|]. intro j. rewrite P, set_nth_spec.
      destruct (Nat.leb_spec (S f) j) as [A|A], (Nat.leb_spec f j) as [B|B]; try lia.
      * replace (j - f) with (S (j - S f)) by lia. cbn [nth_error]. destruct (Nat.eqb_spec j f); [lia|]. reflexivity.
      * assert (j = f) by lia. subst j. rewrite Nat.sub_diag, Nat.eqb_refl. destruct (Nat.ltb_spec f (length errs)); [|lia].
        reflexivity.
      * destruct (Nat.eqb_spec j f); [lia|]. reflexivity.
Qed.
Lemma nth_error_repeat {B} (x : B) n j : nth_error (repeat x n) j = if j <? n then Some x else None.
Proof. revert j. induction n as [|n IH]; intros [|j]; cbn [repeat nth_error]; try reflexivity. apply IH. Qed.
Lemma frame_errors_spec tx rx :
  length (frame_errors tx rx) = Nat.max (length tx) (length rx) /\
  forall j, j < Nat.max (length tx) (length rx) -> nth_error (frame_errors tx rx) j =
    Some (match nth_error tx j, nth_error rx j with Some t, Some r => negb (array_equiv t r) | _, _ => true end).
Proof.
  unfold frame_errors.
  destruct (compare_frames_spec tx rx 0 (repeat true (Nat.max (length tx) (length rx)))) as [L P].
  - rewrite repeat_length. lia.
  - rewrite repeat_length in L. split; [exact L|]. intros j Hj. rewrite P. cbn [Nat.leb]. rewrite Nat.sub_0_r, nth_error_repeat.
    destruct (Nat.ltb_spec j (Nat.max (length tx) (length rx))); [|lia].
    destruct (nth_error tx j), (nth_error rx j); reflexivity.
Qed.

Lemma count_filter {B} (g : B -> bool) l : count (map g l) = length (filter g l).
Proof. unfold count. induction l as [|x l IH]; [reflexivity|]. cbn [map filter]. destruct (g x); cbn [length]; rewrite IH; reflexivity. Qed.
