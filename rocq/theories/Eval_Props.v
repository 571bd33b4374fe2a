(** C27, C28, C29: bit, block and frame errors and throughput. *)
From Coq Require Import List Arith Bool ZArith QArith Lia Lqa.
From Verif Require Import Base BaseLemmas Frames_Proofs Eval_Model Eval_Spec Eval_Proofs.
Import ListNotations.
Open Scope nat_scope.

(** *** C27 *)

(** The evaluation has one entry per bit of the longer sequence; entry [i] is set exactly if
    the sequences, continued with zeros, differ at bit [i]. *)
Theorem C27_error_positions : forall tx rx,
  length (bit_errors tx rx) = Nat.max (length tx) (length rx) /\
  forall i, nth i (bit_errors tx rx) false = true <-> bit tx i <> bit rx i.
Proof.
  intros tx rx. split; [apply bit_errors_length|]. intro i. rewrite bit_errors_nth.
  destruct (bit tx i), (bit rx i); cbn; split; congruence.
Qed.
Print Assumptions C27_error_positions.

(** The bit error rate is the Hamming distance over the length. *)
Theorem C27_rate_is_hamming_distance : forall tx rx, (tx <> [] \/ rx <> []) ->
  let n := Nat.max (length tx) (length rx) in
  mean (bit_errors tx rx)
  = Some (inject_Z (Z.of_nat (distance n tx rx)) / inject_Z (Z.of_nat n))%Q.
Proof.
  intros tx rx H n. unfold mean. pose proof (bit_errors_length tx rx) as L. pose proof (bit_errors_count tx rx) as C.
  fold n in L, C. destruct (bit_errors tx rx) as [|x l] eqn:E.
  - exfalso. unfold n in L. cbn in L. destruct H as [H|H]; apply H; apply length_zero_iff_nil; lia.
  - rewrite C, L. reflexivity.
Qed.
Print Assumptions C27_rate_is_hamming_distance.
Example C27_rate_used : mean (bit_errors [true; false; true; true] [true; true; false])
  = Some (inject_Z 3 / inject_Z 4)%Q.
Proof. reflexivity. Qed.

(** Exchanging the sequences changes nothing. *)
Theorem C27_symmetric : forall tx rx, bit_errors tx rx = bit_errors rx tx.
Proof.
  intros tx rx. apply nth_ext with (d := false) (d' := false).
  - rewrite !bit_errors_length. lia.
  - intros i _. rewrite !bit_errors_nth. apply xorb_comm.
Qed.
Print Assumptions C27_symmetric.

(** No error is counted exactly if the sequences agree up to zeros at the end; for sequences
    of equal lengths exactly if they are equal. *)
Theorem C27_zero_iff : forall tx rx, count (bit_errors tx rx) = 0 <-> forall i, bit tx i = bit rx i.
Proof.
  intros tx rx. rewrite count_zero. split; intros H i; specialize (H i).
  - rewrite bit_errors_nth in H. destruct (bit tx i), (bit rx i); cbn in H; congruence.
  - rewrite bit_errors_nth, H. apply xorb_nilpotent.
Qed.
Print Assumptions C27_zero_iff.
Theorem C27_zero_iff_equal : forall tx rx, length tx = length rx ->
  count (bit_errors tx rx) = 0 <-> tx = rx.
Proof.
  intros tx rx L. rewrite C27_zero_iff. split.
  - intro H. apply nth_ext with (d := false) (d' := false); [exact L|]. intros i _. apply H.
  - intros -> i. reflexivity.
Qed.
Print Assumptions C27_zero_iff_equal.

(** Bits missing at the receiver count as errors exactly if they are ones: the errors of a
    truncated but otherwise correct reception are the ones in the missing part. *)
Theorem C27_missing_bits : forall tx m, count (bit_errors tx (firstn m tx)) = count (skipn m tx).
Proof.
  intros tx m.
  assert (E : bit_errors tx (firstn m tx) = repeat false (Nat.min m (length tx)) ++ skipn m tx).
  { apply nth_ext with (d := false) (d' := false).
    - rewrite bit_errors_length, app_length, repeat_length, firstn_length, skipn_length. lia.
    - intros i _. rewrite bit_errors_nth. unfold bit. rewrite !nth_of_error, nth_error_firstn.
      destruct (Nat.ltb_spec i m) as [H|H].
      + rewrite xorb_nilpotent. destruct (Nat.lt_ge_cases i (length tx)) as [K|K].
        * rewrite nth_error_app1 by (rewrite repeat_length; lia). rewrite nth_error_repeat.
          destruct (i <? Nat.min m (length tx)); reflexivity.
        * rewrite skipn_all2 by lia. rewrite app_nil_r, nth_error_repeat. destruct (i <? Nat.min m (length tx)); reflexivity.
      + rewrite xorb_false_r. destruct (Nat.lt_ge_cases m (length tx)) as [K|K].
        * rewrite nth_error_app2 by (rewrite repeat_length; lia). rewrite repeat_length, nth_error_skipn.
          replace (m + (i - Nat.min m (length tx))) with i by lia. reflexivity.
        * rewrite skipn_all2 by lia. rewrite app_nil_r, nth_error_repeat.
          rewrite (proj2 (nth_error_None tx i)) by lia. destruct (i <? Nat.min m (length tx)); reflexivity. }
  rewrite E, count_app. assert (Z : forall n, count (repeat false n) = 0) by (induction n; auto). rewrite Z. reflexivity.
Qed.
Print Assumptions C27_missing_bits.
Example C27_missing_bits_used : count (bit_errors [true; false; true; true; false] [true; false]) = 2.
Proof. reflexivity. Qed.

(** The error count obeys the triangle inequality for sequences of equal lengths. *)
Theorem C27_triangle : forall x y z, length x = length y -> length y = length z ->
  count (bit_errors x z) <= count (bit_errors x y) + count (bit_errors y z).
Proof.
  intros x y z L1 L2. rewrite !bit_errors_count. rewrite <- L2, L1, !Nat.max_id. generalize (length y) as n.
  induction n as [|n IH]; [cbn; lia|]. cbn [distance].
  destruct (bit x n), (bit y n), (bit z n); cbn; lia.
Qed.
Print Assumptions C27_triangle.

(** *** C28 *)

(** All frames consist of whole blocks of [k] bits, received frames carry as many bits as the
    transmitted frames (frames may be missing at either end).  Then the evaluation has one
    entry per block; entry [j] is set exactly if the blocks [j] of both bit streams differ,
    and for every block that exists on one side only. *)
Theorem C28_block_errors : forall k tx rx, 0 < k -> whole k tx -> whole k rx ->
  (forall i t r, nth_error tx i = Some t -> nth_error rx i = Some r -> length (f_bits t) = length (f_bits r)) ->
  let T := concat (map f_bits tx) in let R := concat (map f_bits rx) in
  exists errors, block_errors tx rx = Ok errors /\
    length errors = Nat.max (length T / k) (length R / k) /\
    (forall j, j < Nat.min (length T / k) (length R / k) ->
       nth j errors false = true <-> kth_block k j T <> kth_block k j R) /\
    (forall j, Nat.min (length T / k) (length R / k) <= j < Nat.max (length T / k) (length R / k) ->
       nth j errors false = true).
Proof.
  intros k tx rx Hk WT WR HM T R. set (nt := length T / k). set (nr := length R / k).
  exists (diffs k T R ++ repeat true (Nat.max nt nr - Nat.min nt nr)).
  assert (Ld : length (diffs k T R) = Nat.min nt nr) by apply length_diffs.
  split; [|split; [|split]].
  - unfold block_errors. rewrite (count_blocks_spec k), (count_blocks_spec k) by assumption. cbn [bind].
    pose proof (compare_spec k Hk tx rx [] (Nat.max nt nr) WT WR HM) as C. cbn [length app] in C.
    change (total tx) with T in *. change (total rx) with R in *. fold nt nr in C. fold nt nr. rewrite Ld in C.
    apply C. lia.
  - rewrite app_length, repeat_length, Ld. lia.
  - intros j Hj. rewrite app_nth1 by lia. rewrite nth_of_error, nth_diffs by (fold nt nr; exact Hj).
    apply differ_spec. rewrite !kth_block_length; auto; fold nt nr; lia.
  - intros j Hj. rewrite app_nth2 by lia. rewrite Ld, nth_of_error, nth_error_repeat.
    destruct (Nat.ltb_spec (j - Nat.min nt nr) (Nat.max nt nr - Nat.min nt nr)); [reflexivity|lia].
Qed.
Print Assumptions C28_block_errors.
Example C28_block_errors_used :
  block_errors [mkFrame [true; false; true; true] 2; mkFrame [false; false] 2] [mkFrame [true; true; true; true] 2]
  = Ok [true; false; true] /\
  whole 2 [mkFrame [true; false; true; true] 2; mkFrame [false; false] 2].
Proof. split; [reflexivity|]. apply Forall_cons; [split; [reflexivity|exists 2; reflexivity]|apply Forall_cons; [split; [reflexivity|exists 1; reflexivity]|apply Forall_nil]]. Qed.

(** Frame pairs with different numbers of blocks, neither of them one, cannot be evaluated. *)
Theorem C28_different_block_counts_raise : forall k tx rx t r tx' rx',
  0 < k -> whole k (tx ++ t :: tx') -> whole k (rx ++ r :: rx') -> length tx = length rx ->
  (forall i t r, nth_error tx i = Some t -> nth_error rx i = Some r -> length (f_bits t) = length (f_bits r)) ->
  length (f_bits t) <> length (f_bits r) -> length (f_bits t) <> k -> length (f_bits r) <> k ->
  block_errors (tx ++ t :: tx') (rx ++ r :: rx') = Raise ValueError.
Proof.
  intros k tx rx t r tx' rx' Hk WT WR L HM Hne Ht Hr. unfold block_errors.
  rewrite (count_blocks_spec k), (count_blocks_spec k) by assumption. cbn [bind].
  set (m := Nat.max _ _).
  assert (WT1 : whole k tx) by (apply Forall_app in WT; tauto).
  assert (WR1 : whole k rx) by (apply Forall_app in WR; tauto).
  assert (WT2 : whole k (t :: tx')) by (apply Forall_app in WT; tauto).
  assert (WR2 : whole k (r :: rx')) by (apply Forall_app in WR; tauto).
  assert (Hm : Nat.min (length (total tx) / k) (length (total rx) / k) <= m).
  { unfold m, total. rewrite !map_app, !concat_app, !app_length. 
    assert (length (concat (map f_bits tx)) / k <= (length (concat (map f_bits tx)) + length (concat (map f_bits (t :: tx')))) / k)
      by (apply Nat.div_le_mono; lia). lia. }
  clearbody m. clear WT WR.
  assert (G : forall tx rx b errs, length tx = length rx -> whole k tx -> whole k rx ->
    exists e, compare_blocks (tx ++ t :: tx') (rx ++ r :: rx') b errs = Raise e /\
     ((forall i t r, nth_error tx i = Some t -> nth_error rx i = Some r -> length (f_bits t) = length (f_bits r)) -> e = ValueError)).
  { clear - WT2 WR2 Hne Ht Hr Hk. apply Forall_inv in WT2, WR2. destruct WT2 as [Bt [n Hn]], WR2 as [Br [n' Hn']].
    induction tx as [|u tx IH]; intros [|v rx] b errs L WT WR; cbn in L; try lia.
    - exists ValueError. split; [|reflexivity]. cbn [app compare_blocks].
      rewrite (reshape_spec k t n), (reshape_spec k r n') by assumption. cbn [bind]. unfold any_ne.
      rewrite Bt, Br, Nat.eqb_refl, !length_blocks_of. cbn [orb negb].
      destruct (Nat.eqb_spec n n'); [nia|]. destruct (Nat.eqb_spec n 1); [nia|]. destruct (Nat.eqb_spec n' 1); [nia|]. reflexivity.
    - apply Forall_cons_iff in WT, WR. destruct WT as [[Bu [a Ha]] WT], WR as [[Bv [c Hc]] WR].
      cbn [app compare_blocks]. rewrite (reshape_spec k u a), (reshape_spec k v c) by assumption. cbn [bind].
      unfold any_ne. rewrite Bu, Bv, Nat.eqb_refl, !length_blocks_of. cbn [orb negb].
      assert (X : forall r : result (list bool), (forall e, r = Raise e -> e = ValueError) -> forall k' : list bool -> result (list bool),
        (forall l, exists e, k' l = Raise e /\ ((forall i t0 r0, nth_error (u :: tx) i = Some t0 -> nth_error (v :: rx) i = Some r0 -> length (f_bits t0) = length (f_bits r0)) -> e = ValueError)) ->
        exists e, (do v0 <- r; k' v0) = Raise e /\ ((forall i t0 r0, nth_error (u :: tx) i = Some t0 -> nth_error (v :: rx) i = Some r0 -> length (f_bits t0) = length (f_bits r0)) -> e = ValueError)).
      { intros r0 H0 k' Hk'. destruct r0 as [l|e]; [apply Hk'|]. exists e. split; [reflexivity|]. intros _. apply H0. reflexivity. }
      apply X.
      { intros e. destruct (a =? c); [discriminate|]. destruct (a =? 1); [discriminate|]. destruct (c =? 1); [discriminate|]. congruence. }
      intro l. apply X.
      { intros e. unfold assign. destruct (_ =? _); [discriminate|]. destruct (_ =? 1); [discriminate|]. congruence. }
      intro l'. destruct (IH rx (b + Nat.max a c) l' ltac:(lia) WT WR) as [e [E1 E2]]. exists e. split; [exact E1|].
      intro HM. apply E2. intros i t0 r0 H1 H2. exact (HM (S i) t0 r0 H1 H2). }
  destruct (G tx rx 0 (repeat true m) L WT1 WR1) as [e [E1 E2]]. rewrite E1. f_equal. apply E2, HM.
Qed.
Print Assumptions C28_different_block_counts_raise.
Example C28_different_block_counts_raise_used :
  block_errors [mkFrame [true; false; true] 1] [mkFrame [true; true] 1] = Raise ValueError.
Proof. reflexivity. Qed.

(** A received frame of a single block is compared with every block of the transmitted
    frame. *)
Theorem C28_single_block_is_broadcast : forall k n t r, 0 < k -> 1 < n -> length t = n * k -> length r = k ->
  exists errors, block_errors [mkFrame t k] [mkFrame r k] = Ok errors /\ length errors = n /\
    forall j, j < n -> nth j errors false = true <-> kth_block k j t <> r.
Proof.
  intros k n t r Hk Hn Ht Hr. exists (map (fun a => differ a r) (blocks_of n k t)).
  assert (Er : blocks_of 1 k r = [r]).
  { rewrite blocks_of_S. cbn. rewrite <- Hr, firstn_all. reflexivity. }
  split; [|split].
  - unfold block_errors. cbn [count_blocks f_block f_bits]. destruct (Nat.eqb_spec k 0); [lia|]. cbn [bind].
    rewrite Ht, Hr, Nat.div_mul, Nat.div_same by lia. rewrite !Nat.add_0_r. rewrite Nat.max_l by lia.
    cbn [compare_blocks]. rewrite (reshape_spec k _ n), (reshape_spec k _ 1) by (cbn [f_bits f_block]; lia).
    cbn [bind f_bits f_block]. unfold any_ne. rewrite Nat.eqb_refl, !length_blocks_of, Er. cbn [orb negb hd].
    destruct (Nat.eqb_spec n 1); [lia|]. rewrite Nat.eqb_refl. cbn [bind]. rewrite Nat.max_l by lia.
    set (v := map _ _). assert (Lv : length v = n) by (unfold v; rewrite map_length, length_blocks_of; reflexivity).
    pose proof (assign_prefix [] v n ltac:(lia)) as HA. cbn [app length] in HA. rewrite Lv in HA. rewrite HA. cbn [bind].
    rewrite Nat.sub_diag. cbn. rewrite app_nil_r. reflexivity.
  - rewrite map_length, length_blocks_of. reflexivity.
  - intros j Hj. rewrite nth_of_error, nth_error_map'. unfold blocks_of. rewrite nth_error_map', nth_error_seq.
    destruct (Nat.ltb_spec j n); [|lia]. cbn [option_map Nat.add].
    assert (Es : slice (j * k) (S j * k) t = kth_block k j t) by (unfold slice, kth_block; f_equal; lia).
    rewrite Es.
    apply differ_spec. rewrite kth_block_length, Hr; auto. rewrite Ht, Nat.div_mul; lia.
Qed.
Print Assumptions C28_single_block_is_broadcast.

(** Hence blocks that were never received can count as correct. *)
Theorem C28_missing_blocks_are_errors_refuted : ~ forall k tx rx errors, 0 < k -> whole k tx -> whole k rx ->
  block_errors tx rx = Ok errors ->
  forall j, Nat.min (length (total tx) / k) (length (total rx) / k) <= j < length errors ->
  nth j errors false = true.
Proof.
  intro H. specialize (H 1 [mkFrame [true; true] 1] [mkFrame [true] 1] [false; false] ltac:(lia)).
  assert (W1 : whole 1 [mkFrame [true; true] 1]) by (apply Forall_cons; [split; [reflexivity|exists 2; reflexivity]|apply Forall_nil]).
  assert (W2 : whole 1 [mkFrame [true] 1]) by (apply Forall_cons; [split; [reflexivity|exists 1; reflexivity]|apply Forall_nil]).
  specialize (H W1 W2 eq_refl 1). cbn in H. specialize (H ltac:(lia)). discriminate.
Qed.
Print Assumptions C28_missing_blocks_are_errors_refuted.

(** *** C29 *)

(** One entry per frame of the longer sequence; frames missing on either side are errors,
    frames carrying equally many bits are errors exactly if any bit differs. *)
Theorem C29_frame_errors : forall tx rx,
  length (frame_errors tx rx) = Nat.max (length tx) (length rx) /\
  (forall j, Nat.min (length tx) (length rx) <= j < Nat.max (length tx) (length rx) ->
     nth j (frame_errors tx rx) false = true) /\
  (forall j t r, nth_error tx j = Some t -> nth_error rx j = Some r -> length t = length r ->
     nth j (frame_errors tx rx) false = true <-> t <> r).
Proof.
  intros tx rx. destruct (frame_errors_spec tx rx) as [L P]. split; [exact L|]. split.
  - intros j Hj. rewrite nth_of_error, P by lia.
    destruct (nth_error tx j) eqn:E1; [|reflexivity]. destruct (nth_error rx j) eqn:E2; [|reflexivity].
    assert (j < length tx) by (apply nth_error_Some; congruence).
    assert (j < length rx) by (apply nth_error_Some; congruence). lia.
  - intros j t r Ht Hr HL.
    assert (j < length tx) by (apply nth_error_Some; congruence).
    rewrite nth_of_error, P, Ht, Hr by lia.
    pose proof (array_equiv_spec t r HL) as A. destruct (array_equiv t r); cbn; split; intro H0; try congruence.
    + exfalso. apply H0, A. reflexivity.
    + intro E. apply A in E. discriminate.
Qed.
Print Assumptions C29_frame_errors.
Example C29_frame_errors_used : frame_errors [[true; false]; [true; true]; [false]] [[true; false]; [false; true]]
  = [false; true; true].
Proof. reflexivity. Qed.

(** Frames with different numbers of bits are errors unless one of them has a single bit. *)
Theorem C29_different_lengths : forall tx rx j t r,
  nth_error tx j = Some t -> nth_error rx j = Some r ->
  length t <> length r -> length t <> 1 -> length r <> 1 -> nth j (frame_errors tx rx) false = true.
Proof.
  intros tx rx j t r Ht Hr HL H1 H2. destruct (frame_errors_spec tx rx) as [_ P].
  assert (j < length tx) by (apply nth_error_Some; congruence).
  rewrite nth_of_error, P, Ht, Hr by lia. unfold array_equiv.
  destruct (Nat.eqb_spec (length t) (length r)); [contradiction|].
  destruct (Nat.eqb_spec (length t) 1); [contradiction|]. destruct (Nat.eqb_spec (length r) 1); [contradiction|]. reflexivity.
Qed.
Print Assumptions C29_different_lengths.

(** A single received bit is compared with every transmitted bit, so a frame can count as
    correct although bits are missing. *)
Theorem C29_single_bit : forall t x, length t <> 1 ->
  frame_errors [t] [[x]] = [false] <-> Forall (fun y => y = x) t.
Proof.
  intros t x HL. unfold frame_errors. cbn [length Nat.max repeat compare_frames set_nth].
  unfold array_equiv. cbn [length]. destruct (Nat.eqb_spec (length t) 1); [contradiction|]. cbn [Nat.eqb hd].
  assert (F : forallb (fun y => eqb y x) t = true <-> Forall (fun y => y = x) t).
  { rewrite forallb_forall, Forall_forall. split; intros H y Hy; specialize (H y Hy); apply eqb_true_iff; exact H. }
  destruct (forallb (fun y => eqb y x) t); cbn; split; intro H; try tauto; try discriminate.
  exfalso. assert (false = true) by (apply F; exact H). discriminate.
Qed.
Print Assumptions C29_single_bit.
Theorem C29_frame_error_iff_different_refuted : ~ forall t r, frame_errors [t] [r] = [false] -> t = r.
Proof. intro H. specialize (H [true; true] [true] eq_refl). discriminate. Qed.
Print Assumptions C29_frame_error_iff_different_refuted.

(** The throughput is the number of bits of the correct frames over the time all frames take,
    if every received frame carries [k] bits and lasts [d]. *)
Theorem C29_throughput : forall tx rx total k d, (0 < d)%Q -> rx <> [] ->
  Forall (fun f => length (fst f) = k /\ snd f = d) rx -> Forall (fun t => length t = k) tx ->
  let frames := Nat.max (length tx) (length rx) in
  let correct := filter (fun j => match nth_error tx j, nth_error (map fst rx) j with
                                  | Some t, Some r => if list_eq_dec bool_dec t r then true else false
                                  | _, _ => false end) (seq 0 frames) in
  (throughput tx rx total * (inject_Z (Z.of_nat frames) * d)
   == inject_Z (Z.of_nat (length correct * k)))%Q.
Proof.
  intros tx rx total k d Hd HN HR HT frames correct.
  destruct (frame_errors_spec tx (map fst rx)) as [L P]. rewrite map_length in L, P. fold frames in L, P.
  assert (Hf : 0 < frames) by (unfold frames; destruct rx; [contradiction|]; cbn; lia).
  assert (Hc : count (map negb (frame_errors tx (map fst rx))) = length correct).
  { assert (E : map negb (frame_errors tx (map fst rx)) = map (fun j => match nth_error tx j, nth_error (map fst rx) j with
                                  | Some t, Some r => if list_eq_dec bool_dec t r then true else false
                                  | _, _ => false end) (seq 0 frames)).
    { apply nth_error_ext. intro j. rewrite !nth_error_map', nth_error_seq.
      destruct (Nat.ltb_spec j frames) as [H|H].
      - rewrite (P j H). cbn [option_map Nat.add]. f_equal.
        destruct (nth_error tx j) as [t|] eqn:Et; [|reflexivity]. destruct (nth_error (map fst rx) j) as [r|] eqn:Er; [|reflexivity].
        assert (HL : length t = length r).
        { pose proof (proj1 (Forall_forall _ _) HT t (nth_error_In _ _ Et)) as A1. cbn in A1.
          apply nth_error_In in Er. apply in_map_iff in Er. destruct Er as [f [<- Hin]].
          pose proof (proj1 (Forall_forall _ _) HR f Hin) as [A2 _]. congruence. }
        pose proof (array_equiv_spec t r HL) as A.
        destruct (array_equiv t r), (list_eq_dec bool_dec t r) as [D|D]; cbn; try reflexivity; exfalso.
        + apply D, A. reflexivity.
        + assert (false = true) by (apply A, D). discriminate.
      - rewrite (proj2 (nth_error_None _ j)) by lia. reflexivity. }
    rewrite E. apply count_filter. }
  assert (V : (throughput tx rx total = throughput_value k d (frame_errors tx (map fst rx)))%Q).
  { unfold throughput. destruct rx as [|[b e] rx]; [contradiction|]. apply Forall_inv in HR. cbn in HR. destruct HR as [-> ->]. reflexivity. }
  rewrite V. unfold throughput_value. rewrite L, Hc.
  destruct (Nat.ltb_spec frames 1); [lia|]. cbn [orb].
  destruct (Qle_bool d 0) eqn:Ed; [apply Qle_bool_iff in Ed; lra|].
  rewrite Nat2Z.inj_mul, inject_Z_mult. field. split; [lra|]. unfold Qeq. cbn. lia.
Qed.
Print Assumptions C29_throughput.
Example C29_throughput_used : (throughput [[true; false]; [true; true]] [([true; false], 1%Q); ([false; true], 1%Q)] 5
  == 1)%Q.
Proof. reflexivity. Qed.

(** Nothing received, nothing transported. *)
Theorem C29_no_reception : forall tx total, (throughput tx [] total == 0)%Q.
Proof.
  intros tx total. unfold throughput, throughput_value. destruct (_ || _); [reflexivity|]. cbn.
  unfold Qdiv. rewrite (Qmult_comm _ (inject_Z 0)). change (inject_Z 0) with 0%Q. ring.
Qed.
Print Assumptions C29_no_reception.
