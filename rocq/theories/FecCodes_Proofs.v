(** Proofs about the individual codes, the execution order and multi-frame sessions. *)
From Coq Require Import List Arith Lia Bool Permutation Sorted.
From Verif Require Import Base BaseLemmas Fec_Model Fec_Proofs.
From Verif Require Import Fec_Spec.
Import ListNotations.

(** * Repetition *)

Lemma filter_count_compl {A} (f : A -> bool) l :
  length (filter f l) + length (filter (fun x => negb (f x)) l) = length l.
Proof. induction l; simpl; auto. destruct (f a); simpl; lia. Qed.

Lemma filter_ext_len {A} (f g : A -> bool) l : (forall x, f x = g x) -> length (filter f l) = length (filter g l).
Proof. intros H. induction l; simpl; auto. rewrite H. destruct (g a); simpl; lia. Qed.

Lemma rep_decode_bit reps K sent recv :
  reps mod 2 = 1 -> length recv = reps * K -> length sent = K ->
  exists out, rep_decode reps K recv = Ok out /\ length out = K /\
    forall j, j < K -> (nth j out false = nth j sent false <-> Fec_Spec.errors_at reps K sent recv j <= (reps - 1) / 2).
Proof.
  intros Hodd Hlen Hs. unfold rep_decode.
  destruct (Nat.eqb_spec reps 1) as [->|Hne].
  - exists recv. repeat split; [lia| |].
    + intros Heq. unfold Fec_Spec.errors_at. simpl. rewrite Heq, eqb_reflx. simpl. lia.
    + unfold Fec_Spec.errors_at. simpl.
      destruct (nth j recv false), (nth j sent false); simpl; intros; auto; lia.
  - rewrite Hlen, Nat.eqb_refl. eexists. split; [reflexivity|].
    split; [now rewrite map_length, seq_length|].
    intros j Hj.
    rewrite (nth_indep _ false (reps <=? 2 * rep_ones reps K recv 0)) by (rewrite map_length, seq_length; lia).
    rewrite (map_nth (fun j => reps <=? 2 * rep_ones reps K recv j)), seq_nth by lia. simpl plus.
    pose proof (Nat.div_mod_eq reps 2) as D. rewrite Hodd in D.
    pose proof (Nat.div_mod_eq (reps - 1) 2). pose proof (Nat.mod_upper_bound (reps - 1) 2).
    unfold Fec_Spec.errors_at, rep_ones. destruct (nth j sent false) eqn:Ej.
    + pose proof (filter_count_compl (fun i => nth (i * K + j) recv false) (seq 0 reps)) as C.
      rewrite seq_length in C.
      rewrite (filter_ext_len (fun i => negb (eqb (nth (i * K + j) recv false) true)) (fun i => negb (nth (i * K + j) recv false)))
        by (intros x; destruct (nth _ recv false); reflexivity).
      set (a := length (filter _ _)) in *. set (b := length (filter (fun x => negb _) _)) in *.
      rewrite Nat.leb_le. lia.
    + rewrite (filter_ext_len (fun i => negb (eqb (nth (i * K + j) recv false) false)) (fun i => nth (i * K + j) recv false))
        by (intros x; destruct (nth _ recv false); reflexivity).
      set (a := length (filter _ _)) in *. rewrite Nat.leb_gt. lia.
Qed.

Lemma nth_concat_repeat {A} (b : list A) d reps i j :
  i < reps -> j < length b -> nth (i * length b + j) (concat (repeat b reps)) d = nth j b d.
Proof.
  revert i. induction reps; intros i Hi Hj; [lia|]. simpl. destruct i.
  - simpl. now rewrite app_nth1.
  - rewrite app_nth2 by (simpl; lia). replace (S i * length b + j - length b) with (i * length b + j) by (simpl; lia).
    apply IHreps; lia.
Qed.

Lemma rep_encode_length reps b : length (rep_encode reps b) = reps * length b.
Proof. unfold rep_encode. induction reps; simpl; auto. rewrite app_length. lia. Qed.

Lemma filter_none {A} (f : A -> bool) l : (forall x, In x l -> f x = false) -> filter f l = [].
Proof. induction l; simpl; intros H; auto. rewrite H by auto. auto. Qed.

Lemma rep_encode_no_errors reps b j : j < length b -> Fec_Spec.errors_at reps (length b) b (rep_encode reps b) j = 0.
Proof.
  intros Hj. unfold Fec_Spec.errors_at. rewrite filter_none; auto.
  intros i Hi. apply in_seq in Hi. unfold rep_encode. rewrite nth_concat_repeat by lia.
  now rewrite eqb_reflx.
Qed.

Lemma rep_roundtrip reps b : reps mod 2 = 1 -> rep_decode reps (length b) (rep_encode reps b) = Ok b.
Proof.
  intros Hodd.
  destruct (rep_decode_bit reps (length b) b (rep_encode reps b) Hodd (rep_encode_length reps b) eq_refl) as (out & -> & Hl & Hj).
  f_equal. apply (nth_ext _ _ false false); auto. intros j Hlt. apply Hj; [lia|].
  rewrite rep_encode_no_errors by lia. lia.
Qed.

(** * Interleaver *)

Definition tindex (r c i : nat) : nat := (i mod r) * c + i / r.

Lemma tindex_lt r c i : i < r * c -> tindex r c i < r * c.
Proof.
  intros H. unfold tindex. assert (r <> 0) by nia.
  pose proof (Nat.mod_upper_bound i r). assert (i / r < c) by (apply Nat.div_lt_upper_bound; lia).
  assert (i mod r * c <= (r - 1) * c) by (apply Nat.mul_le_mono_r; lia).
  assert ((r - 1) * c + c = r * c) by (destruct r; simpl; lia). lia.
Qed.

Lemma tindex_inv r c i : i < r * c -> tindex c r (tindex r c i) = i.
Proof.
  intros H. unfold tindex. assert (r <> 0) by nia.
  assert (i / r < c) by (apply Nat.div_lt_upper_bound; lia).
  rewrite (Nat.add_comm (i mod r * c)), Nat.mod_add, Nat.div_add by lia.
  rewrite Nat.mod_small, (Nat.div_small (i / r)) by lia.
  pose proof (Nat.div_mod_eq i r). lia.
Qed.

Lemma transpose_length r c x : length (transpose_flat r c x) = r * c.
Proof. unfold transpose_flat. now rewrite map_length, seq_length. Qed.

Lemma transpose_nth r c x i : i < r * c -> nth i (transpose_flat r c x) false = nth (tindex r c i) x false.
Proof.
  intros H. unfold transpose_flat.
  rewrite (nth_indep _ false (nth (0 mod r * c + 0 / r) x false)) by (rewrite map_length, seq_length; lia).
  rewrite (map_nth (fun i => nth (i mod r * c + i / r) x false)), seq_nth by lia. reflexivity.
Qed.

Lemma transpose_inv r c x : length x = r * c -> transpose_flat c r (transpose_flat r c x) = x.
Proof.
  intros H. apply (nth_ext _ _ false false).
  - rewrite transpose_length. lia.
  - intros i Hi. rewrite transpose_length in Hi. rewrite transpose_nth by lia. rewrite transpose_nth.
    + f_equal. apply tindex_inv. lia.
    + rewrite Nat.mul_comm. apply tindex_lt. lia.
Qed.

Lemma transpose_perm r c x : length x = r * c -> Permutation (transpose_flat r c x) x.
Proof.
  intros H.
  assert (P : Permutation (map (tindex r c) (seq 0 (r * c))) (seq 0 (r * c))).
  { apply NoDup_Permutation_bis.
    - apply NoDup_nth with (d := 0). rewrite map_length, seq_length. intros i j Hi Hj.
      rewrite (nth_indep _ 0 (tindex r c 0)) by (rewrite map_length, seq_length; lia).
      rewrite (nth_indep (map _ _) 0 (tindex r c 0)) by (rewrite map_length, seq_length; lia).
      rewrite !(map_nth (tindex r c)), !seq_nth by lia. simpl. intros E.
      rewrite <- (tindex_inv r c i Hi), <- (tindex_inv r c j Hj). now f_equal.
    - rewrite map_length. lia.
    - intros y Hy. apply in_map_iff in Hy. destruct Hy as (i & <- & Hi). apply in_seq in Hi.
      apply in_seq. pose proof (tindex_lt r c i). lia. }
  apply (Permutation_map (fun k => nth k x false)) in P. rewrite map_map in P.
  unfold transpose_flat. unfold tindex in P. eapply perm_trans; [exact P|].
  rewrite <- H. assert (E : map (fun k => nth k x false) (seq 0 (length x)) = x).
  { apply (nth_ext _ _ false false); [now rewrite map_length, seq_length|].
    intros i Hi. rewrite map_length, seq_length in Hi.
    rewrite (nth_indep _ false (nth 0 x false)) by (rewrite map_length, seq_length; lia).
    rewrite (map_nth (fun k => nth k x false)), seq_nth by lia. reflexivity. }
  rewrite E. reflexivity.
Qed.

Lemma il_encode_ok K M b : il_new K M = Ok (K, M) -> length b = K ->
  exists c, il_encode M b = Ok c /\ length c = K /\ Permutation c b /\ il_decode M c = Ok b /\
    (forall i j, i < K / M -> j < M -> nth (i * M + j) c false = nth (j * (K / M) + i) b false).
Proof.
  unfold il_new. destruct (Nat.eqb_spec M 0); [discriminate|].
  destruct (Nat.eqb_spec (K mod M) 0) as [Hm|]; [|discriminate]. intros _ Hb.
  pose proof (Nat.div_mod_eq K M) as D. rewrite Hm, Nat.add_0_r in D.
  unfold il_encode. destruct (Nat.eqb_spec M 0); [lia|]. rewrite Hb, Hm. simpl.
  eexists. split; [reflexivity|]. rewrite transpose_length. split; [lia|].
  split; [apply transpose_perm; lia|]. split.
  - unfold il_decode. destruct (Nat.eqb_spec M 0); [lia|]. rewrite transpose_length.
    rewrite <- D, Hm. simpl. f_equal. apply transpose_inv. lia.
  - intros i j Hi Hj. rewrite transpose_nth by nia. f_equal. unfold tindex.
    rewrite (Nat.add_comm (i * M)), Nat.mod_add, Nat.div_add by lia.
    rewrite (Nat.mod_small j), (Nat.div_small j) by lia. lia.
Qed.

Lemma il_decode_encode K M c : il_new K M = Ok (K, M) -> length c = K ->
  exists b, il_decode M c = Ok b /\ length b = K /\ il_encode M b = Ok c.
Proof.
  unfold il_new. destruct (Nat.eqb_spec M 0); [discriminate|].
  destruct (Nat.eqb_spec (K mod M) 0) as [Hm|]; [|discriminate]. intros _ Hb.
  pose proof (Nat.div_mod_eq K M) as D. rewrite Hm, Nat.add_0_r in D.
  unfold il_decode. destruct (Nat.eqb_spec M 0); [lia|]. rewrite Hb, Hm. simpl.
  eexists. split; [reflexivity|]. rewrite transpose_length. split; [lia|].
  unfold il_encode. destruct (Nat.eqb_spec M 0); [lia|]. rewrite transpose_length.
  rewrite (Nat.mul_comm (K / M)), <- D, Hm. simpl. f_equal. apply transpose_inv. lia.
Qed.

(** * Scramblers *)

Lemma prg_sequence_app n m s :
  prg_sequence (n + m) s =
  let (s1, b1) := prg_sequence n s in let (s2, b2) := prg_sequence m s1 in (s2, b1 ++ b2).
Proof.
  revert s. induction n; intros s; cbn [prg_sequence plus].
  - now destruct (prg_sequence m s).
  - destruct (prg_step s) as (s1, b). rewrite IHn. destruct (prg_sequence n s1) as (s2, b1).
    destruct (prg_sequence m s2). reflexivity.
Qed.

Lemma prg_sequence_length n s : length (snd (prg_sequence n s)) = n.
Proof.
  revert s. induction n; intros s; cbn [prg_sequence]; auto.
  destruct (prg_step s) as (s1, b). specialize (IHn s1). destruct (prg_sequence n s1). simpl in *. lia.
Qed.

Lemma xor_bits_length a b : length a = length b -> length (xor_bits a b) = length a.
Proof. intros H. unfold xor_bits. rewrite map_length, combine_length. lia. Qed.

Lemma xor_bits_inv a w : length a = length w -> xor_bits (xor_bits a w) w = a.
Proof.
  revert w. induction a; intros [|x w] H; simpl in *; try discriminate; auto.
  injection H as H. unfold xor_bits in *. simpl. f_equal; [now destruct a, x|now apply IHa].
Qed.

Lemma xor_bits_app a1 a2 w1 w2 : length a1 = length w1 ->
  xor_bits (a1 ++ a2) (w1 ++ w2) = xor_bits a1 w1 ++ xor_bits a2 w2.
Proof.
  revert w1. induction a1; intros [|x w1] H; simpl in *; try discriminate; auto.
  unfold xor_bits in *. simpl. f_equal. apply IHa1. lia.
Qed.

(** A stream cipher seen as one pass over the concatenated blocks. *)
Definition stream (g : prg) (data : bits) : prg * bits :=
  let (g', w) := prg_sequence (length data) g in (g', xor_bits data w).

Lemma stream_app g d1 d2 : stream g (d1 ++ d2) =
  let (g1, c1) := stream g d1 in let (g2, c2) := stream g1 d2 in (g2, c1 ++ c2).
Proof.
  unfold stream. rewrite app_length, prg_sequence_app.
  pose proof (prg_sequence_length (length d1) g) as L.
  destruct (prg_sequence (length d1) g) as (g1, w1). simpl in L.
  destruct (prg_sequence (length d2) g1) as (g2, w2).
  now rewrite xor_bits_app.
Qed.

Lemma stream_inv g d : stream g (snd (stream g d)) = (fst (stream g d), d).
Proof.
  unfold stream. pose proof (prg_sequence_length (length d) g) as L.
  destruct (prg_sequence (length d) g) as (g1, w) eqn:E. simpl in *.
  rewrite xor_bits_length by lia. rewrite E. now rewrite xor_bits_inv.
Qed.

Lemma encode_as_stream s b : scr3gpp_encode s b =
  (mkScr (fst (stream (tx_rng s) b)) (rx_rng s), snd (stream (tx_rng s) b)).
Proof. unfold scr3gpp_encode, stream. now destruct (prg_sequence (length b) (tx_rng s)). Qed.

Lemma decode_as_stream s b : scr3gpp_decode s b =
  (mkScr (tx_rng s) (fst (stream (rx_rng s) b)), snd (stream (rx_rng s) b)).
Proof. unfold scr3gpp_decode, stream. now destruct (prg_sequence (length b) (rx_rng s)). Qed.

Lemma feed_encode s bs :
  stream (tx_rng s) (concat bs) = (tx_rng (fst (feed scr3gpp_encode s bs)), concat (snd (feed scr3gpp_encode s bs)))
  /\ rx_rng (fst (feed scr3gpp_encode s bs)) = rx_rng s.
Proof.
  revert s. induction bs as [|b t IH]; intros s; cbn [feed concat].
  - split; reflexivity.
  - rewrite stream_app, encode_as_stream. destruct (stream (tx_rng s) b) as (g, c). cbn [fst snd].
    destruct (IH (mkScr g (rx_rng s))) as (A & B). cbn [tx_rng rx_rng] in A, B. rewrite A.
    destruct (feed scr3gpp_encode (mkScr g (rx_rng s)) t) as (s2, os). cbn in *. auto.
Qed.

Lemma feed_decode s bs :
  stream (rx_rng s) (concat bs) = (rx_rng (fst (feed scr3gpp_decode s bs)), concat (snd (feed scr3gpp_decode s bs)))
  /\ tx_rng (fst (feed scr3gpp_decode s bs)) = tx_rng s.
Proof.
  revert s. induction bs as [|b t IH]; intros s; cbn [feed concat].
  - split; reflexivity.
  - rewrite stream_app, decode_as_stream. destruct (stream (rx_rng s) b) as (g, c). cbn [fst snd].
    destruct (IH (mkScr (tx_rng s) g)) as (A & B). cbn [tx_rng rx_rng] in A, B. rewrite A.
    destruct (feed scr3gpp_decode (mkScr (tx_rng s) g) t) as (s2, os). cbn in *. auto.
Qed.

Lemma scr3gpp_transparent a b data code : tx_rng a = rx_rng b ->
  concat code = concat (snd (feed scr3gpp_encode a data)) ->
  concat (snd (feed scr3gpp_decode b code)) = concat data /\
  tx_rng (fst (feed scr3gpp_encode a data)) = rx_rng (fst (feed scr3gpp_decode b code)).
Proof.
  intros H Hc.
  destruct (feed_encode a data) as (He & _). destruct (feed_decode b code) as (Hd & _).
  rewrite <- H, Hc in Hd.
  pose proof (stream_inv (tx_rng a) (concat data)) as S. rewrite He in S. cbn [fst snd] in S.
  rewrite S in Hd. injection Hd as E1 E2. split; congruence.
Qed.

Lemma w_scramble_app q d1 d2 : w_scramble q (d1 ++ d2) =
  let (q1, c1) := w_scramble q d1 in let (q2, c2) := w_scramble q1 d2 in (q2, c1 ++ c2).
Proof.
  revert q. induction d1; intros q.
  - simpl. now destruct (w_scramble q d2).
  - cbn [app w_scramble]. destruct (w_forward q) as (q1, b). rewrite IHd1.
    destruct (w_scramble q1 d1) as (q2, c1). destruct (w_scramble q2 d2). reflexivity.
Qed.

Lemma w_scramble_inv q d : w_scramble q (snd (w_scramble q d)) = (fst (w_scramble q d), d).
Proof.
  revert q. induction d as [|x d IH]; intros q; cbn [w_scramble]; auto.
  destruct (w_forward q) as (q1, b) eqn:E. specialize (IH q1).
  destruct (w_scramble q1 d) as (q2, out) eqn:E2. cbn [fst snd w_scramble] in *.
  rewrite E, IH. f_equal. f_equal. now destruct b, x.
Qed.

Lemma feed_w q bs : w_scramble q (concat bs) = (fst (feed w_scramble q bs), concat (snd (feed w_scramble q bs))).
Proof.
  revert q. induction bs as [|b t IH]; intros q; cbn [feed concat]; auto.
  rewrite w_scramble_app. destruct (w_scramble q b) as (q1, o). rewrite IH.
  destruct (feed w_scramble q1 t). reflexivity.
Qed.

Lemma scr80211a_transparent q data code :
  concat code = concat (snd (feed scr80211a_encode q data)) ->
  concat (snd (feed scr80211a_decode q code)) = concat data /\
  fst (feed scr80211a_encode q data) = fst (feed scr80211a_decode q code).
Proof.
  unfold scr80211a_encode, scr80211a_decode. intros Hc.
  pose proof (feed_w q data) as A. pose proof (feed_w q code) as B.
  rewrite Hc in B. pose proof (w_scramble_inv q (concat data)) as C. rewrite A in C. cbn [fst snd] in C.
  rewrite C in B. injection B as E1 E2. split; congruence.
Qed.

(** * Execution order *)

Definition le_K (a b : member) : Prop := m_K a <= m_K b.

Lemma insert_perm m l : Permutation (insert_member m l) (m :: l).
Proof.
  induction l; simpl; auto. destruct (m_K m <? m_K a); auto.
  eapply perm_trans; [apply perm_skip, IHl|apply perm_swap].
Qed.

Lemma insert_hd m l a : HdRel le_K a l -> le_K a m -> HdRel le_K a (insert_member m l).
Proof. intros H Hm. destruct l; simpl; [constructor; auto|]. inv H. destruct (m_K m <? m_K m0); constructor; auto. Qed.

Lemma insert_sorted m l : Sorted le_K l -> Sorted le_K (insert_member m l).
Proof.
  induction 1; simpl.
  - repeat constructor.
  - destruct (Nat.ltb_spec (m_K m) (m_K a)).
    + constructor; [constructor; auto|]. constructor. unfold le_K. lia.
    + constructor; auto. apply insert_hd; auto.
Qed.

Lemma insert_stable m l k : Sorted le_K l ->
  filter (fun x => m_K x =? k) (insert_member m l) = filter (fun x => m_K x =? k) (l ++ [m]).
Proof.
  intros Hs. apply Sorted_StronglySorted in Hs; [|unfold Relations_1.Transitive, le_K; intros; lia].
  induction Hs; cbn [insert_member app filter]; auto.
  destruct (Nat.ltb_spec (m_K m) (m_K a)).
  - cbn [filter]. destruct (Nat.eqb_spec (m_K m) k).
    + assert (F : forall r, Forall (le_K a) r -> filter (fun x => m_K x =? k) (r ++ [m]) = [m]).
      { induction r; intros Hr; simpl.
        - destruct (Nat.eqb_spec (m_K m) k); [auto|lia].
        - apply Forall_cons_iff in Hr; destruct Hr as (Hle & Hr). unfold le_K in Hle. destruct (Nat.eqb_spec (m_K a0) k); [lia|]. auto. }
      rewrite F by auto. destruct (Nat.eqb_spec (m_K a) k); [lia|].
      assert (F2 : forall r, Forall (le_K a) r -> filter (fun x => m_K x =? k) r = []).
      { induction r; intros Hr; simpl; auto. apply Forall_cons_iff in Hr; destruct Hr as (Hle & Hr). unfold le_K in Hle.
        destruct (Nat.eqb_spec (m_K a0) k); [lia|]. auto. }
      now rewrite F2.
    + rewrite filter_app. cbn [filter]. destruct (Nat.eqb_spec (m_K m) k); [lia|]. now rewrite app_nil_r.
  - cbn [filter]. rewrite IHHs. reflexivity.
Qed.

Lemma fold_insert_spec l : forall acc, Sorted le_K acc ->
  let r := fold_left (fun acc m => insert_member m acc) l acc in
  Sorted le_K r /\ Permutation r (acc ++ l) /\
  forall k, filter (fun x => m_K x =? k) r = filter (fun x => m_K x =? k) (acc ++ l).
Proof.
  induction l as [|m l IH]; intros acc Hacc; simpl.
  - rewrite app_nil_r. auto.
  - destruct (IH (insert_member m acc) (insert_sorted m acc Hacc)) as (A & B & C).
    split; [exact A|]. split.
    + eapply perm_trans; [exact B|]. eapply perm_trans; [apply Permutation_app_tail, insert_perm|].
      simpl. apply Permutation_middle.
    + intros k. rewrite C, filter_app, insert_stable by auto.
      rewrite <- filter_app, <- app_assoc. reflexivity.
Qed.

Lemma execution_order_spec l :
  Sorted le_K (execution_order l) /\ Permutation (execution_order l) l /\
  forall k, filter (fun x => m_K x =? k) (execution_order l) = filter (fun x => m_K x =? k) l.
Proof. exact (fold_insert_spec l [] (Sorted_nil _)). Qed.

(** * Sessions of aligned frames *)

Lemma stage_exact pad rng m pos state q :
  well_sized m -> self_inverse m -> length state = q * m_K m ->
  exists m1 m2 code, encode_stage pad rng m pos state = Ok (m1, pos, code) /\
    length code = q * m_L m /\ decode_stage m1 code = Ok (m2, state) /\
    well_sized m2 /\ self_inverse m2 /\ m_enabled m2 = m_enabled m /\ m_enabled m1 = m_enabled m /\
    m_K m2 = m_K m /\ m_L m2 = m_L m.
Proof.
  intros Hs Hi Hl. pose proof Hs as (HK & HL & He & Hd).
  set (bs := blocks_of q (m_K m) state).
  assert (Hbs : Forall (fun b => length b = m_K m) bs) by (apply blocks_of_all_len; lia).
  set (cs := run (m_enc m) (m_ehist m) bs).
  assert (Hcs : Forall (fun b => length b = m_L m) cs) by (eapply run_sized; eauto).
  assert (Hlc : length (concat cs) = q * m_L m).
  { rewrite (length_concat_const _ _ Hcs). unfold cs. rewrite run_length. unfold bs. now rewrite length_blocks_of. }
  exists (set_ehist m (m_ehist m ++ bs)), (set_dhist (set_ehist m (m_ehist m ++ bs)) (m_dhist m ++ cs)), (concat cs).
  split.
  { unfold encode_stage. destruct (Nat.eqb_spec (m_K m) 0); [lia|].
    rewrite Hl, ceil_div_exact by lia. destruct (Nat.ltb_spec (q * m_K m) (q * m_K m)); [lia|].
    cbn [bind]. fold bs. fold cs. rewrite (assign_all _ _ Hcs). reflexivity. }
  split; [exact Hlc|]. split.
  { unfold decode_stage. cbn [m_L set_ehist m_K m_dec m_dhist]. destruct (Nat.eqb_spec (m_L m) 0); [lia|].
    rewrite Hlc, Nat.div_mul by lia. rewrite firstn_all2 by lia.
    assert (Hq : q = length cs) by (unfold cs; rewrite run_length; unfold bs; now rewrite length_blocks_of).
    assert (B : blocks_of q (m_L m) (concat cs) = cs) by (rewrite Hq; apply blocks_of_concat; auto).
    rewrite B. unfold cs at 1. rewrite inverts_run by auto. rewrite (assign_all _ _ Hbs).
    cbn [bind]. f_equal. f_equal. unfold bs. rewrite concat_blocks_of. apply firstn_all2. lia. }
  split; [exact Hs|]. split; [|repeat split; reflexivity].
  apply run_inverts. cbn [m_dec m_dhist m_enc m_ehist m_K set_dhist set_ehist]. intros bs2 Hbs2.
  pose proof (inverts_run m (bs ++ bs2) Hi ltac:(apply Forall_app; auto)) as R.
  rewrite run_app in R. fold cs in R. rewrite run_app in R.
  unfold cs in R at 1. rewrite (inverts_run m bs Hi Hbs) in R. now apply app_inv_head in R.
Qed.

Lemma chain_exact pad rng l : Forall well_sized l -> Forall self_inverse l ->
  forall pos state, fits l (length state) ->
  exists l1 l2 code, encode_chain pad rng l pos state = Ok (l1, pos, code) /\
    decode_chain l1 code = Ok (l2, state) /\ Forall well_sized l2 /\ Forall self_inverse l2 /\
    Forall2 (fun m m2 => m_enabled m2 = m_enabled m /\ m_K m2 = m_K m /\ m_L m2 = m_L m) l l2.
Proof.
  induction l as [|m t IH]; intros Hs Hi pos state Hf; inv Hs; inv Hi; simpl in Hf.
  - exists [], [], state. repeat split; auto.
  - cbn [encode_chain]. destruct (m_enabled m) eqn:En.
    + destruct Hf as (q & Hq & Hf).
      destruct (stage_exact pad rng m pos state q H1 H3 Hq) as (m1 & m2 & code & He & Hlc & Hd & Hs2 & Hi2 & E2 & E1 & EK & EL).
      rewrite <- Hlc in Hf.
      destruct (IH H2 H4 pos code Hf) as (t1 & t2 & c2 & Het & Hdt & Hst & Hit & Hsh).
      rewrite He. cbn [bind]. rewrite Het. cbn [bind].
      exists (m1 :: t1), (m2 :: t2), c2. split; [reflexivity|]. split.
      { cbn [decode_chain]. rewrite Hdt. cbn [bind]. rewrite E1, En, Hd. reflexivity. }
      repeat split; try constructor; auto.
    + destruct (IH H2 H4 pos state Hf) as (t1 & t2 & c2 & Het & Hdt & Hst & Hit & Hsh).
      rewrite Het. cbn [bind]. exists (m :: t1), (m :: t2), c2. split; [reflexivity|]. split.
      { cbn [decode_chain]. rewrite Hdt. cbn [bind]. now rewrite En. }
      repeat split; try constructor; auto.
Qed.

Lemma fits_same l l2 : Forall2 (fun m m2 => m_enabled m2 = m_enabled m /\ m_K m2 = m_K m /\ m_L m2 = m_L m) l l2 ->
  forall n, fits l n -> fits l2 n.
Proof.
  induction 1 as [|m m2 t t2 (A & B & C) Ht IH]; intros n Hf; simpl in *; auto.
  rewrite A, B, C. destruct (m_enabled m); auto. destruct Hf as (q & Hq & Hf). eauto.
Qed.

Lemma session_exact pad rng frames : forall l pos, Forall well_sized l -> Forall self_inverse l ->
  Forall (fun d => fits l (length d)) frames -> session l pad rng pos frames = Ok frames.
Proof.
  induction frames as [|d t IH]; intros l pos Hs Hi Hf; cbn [session]; auto.
  inv Hf. destruct (chain_exact pad rng l Hs Hi pos d H1) as (l1 & l2 & code & He & Hd & Hs2 & Hi2 & Hsh).
  rewrite He. cbn [bind]. rewrite Hd. cbn [bind]. rewrite (IH l2 pos Hs2 Hi2); [reflexivity|].
  eapply Forall_impl; [|exact H2]. intros x Hx. eapply fits_same; eauto.
Qed.

(** * Required number of data bits *)

Lemma encode_stage_aligned pad rng m pos state q : well_sized m -> length state = q * m_K m ->
  exists m1 code, encode_stage pad rng m pos state = Ok (m1, pos, code) /\ length code = q * m_L m.
Proof.
  intros (HK & HL & He & Hd) Hl.
  set (bs := blocks_of q (m_K m) state).
  assert (Hbs : Forall (fun b => length b = m_K m) bs) by (apply blocks_of_all_len; lia).
  set (cs := run (m_enc m) (m_ehist m) bs).
  assert (Hcs : Forall (fun b => length b = m_L m) cs) by (eapply run_sized; eauto).
  eexists. exists (concat cs). split.
  - unfold encode_stage. destruct (Nat.eqb_spec (m_K m) 0); [lia|].
    rewrite Hl, ceil_div_exact by lia. destruct (Nat.ltb_spec (q * m_K m) (q * m_K m)); [lia|].
    cbn [bind]. fold bs. fold cs. rewrite (assign_all _ _ Hcs). reflexivity.
  - rewrite (length_concat_const _ _ Hcs). unfold cs. rewrite run_length. unfold bs. now rewrite length_blocks_of.
Qed.

Lemma loop_exact pad rng t : Forall well_sized t -> forall L, 1 <= L -> chain_nested (Some L) t ->
  exists R, (forall bs, bit_block_loop t bs L = Ok (bs * R)) /\ 1 <= last_L t L /\
    forall m pos state, length state = m * R * L ->
      exists l' code, encode_chain pad rng t pos state = Ok (l', pos, code) /\ length code = m * last_L t L.
Proof.
  induction t as [|e t IH]; intros Hs L HL Hc; cbn [bit_block_loop encode_chain].
  - exists 1. split; [intros; f_equal; lia|]. split; [exact HL|]. intros m pos state Hl.
    exists [], state. split; [reflexivity|]. change (last_L [] L) with L. lia.
  - inv Hs. cbn [chain_nested] in Hc. rewrite last_L_cons. destruct (m_enabled e) eqn:En.
    + destruct Hc as (((r & Hr) & (s & Hs)) & Hc). pose proof H1 as (HK & HLe & _).
      destruct (IH H2 (m_L e) HLe Hc) as (R & HR & Hlast & Henc).
      exists (r * R). destruct (Nat.eqb_spec L 0); [lia|].
      destruct (Nat.eqb_spec (m_K e) 0); [lia|]. destruct (Nat.eqb_spec (m_L e) 0); [lia|]. cbn [orb].
      assert (Hk : m_K e / L = r) by (rewrite Hr; apply Nat.div_mul; lia).
      assert (Hn : L * (m_K e / L * m_L e / m_K e) = m_L e).
      { rewrite Hk, Hs, Hr. replace (r * (s * L)) with (s * (r * L)) by ring.
        rewrite Nat.div_mul by lia. ring. }
      split.
      { intros bs. rewrite Hn, Hk, HR. f_equal. ring. }
      split; [exact Hlast|]. intros m pos state Hl.
      destruct (encode_stage_aligned pad rng e pos state (m * R) H1) as (m1 & c1 & He & Hlc).
      { rewrite Hl, Hr. ring. }
      rewrite He. cbn [bind].
      destruct (Henc m pos c1 Hlc) as (l' & code & -> & Hlen). cbn [bind]. eauto.
    + destruct (IH H2 L HL Hc) as (R & HR & Hlast & Henc). exists R. split; [exact HR|]. split; [exact Hlast|].
      intros m pos state Hl. destruct (Henc m pos state Hl) as (l' & code & -> & Hlen). cbn [bind]. eauto.
Qed.

Lemma block_exact pad rng l : Forall well_sized l -> chain_nested None l ->
  exists B, bit_block_size_of l = Ok B /\ 1 <= last_L l 1 /\
    forall m pos state, length state = m * B ->
      exists l' code, encode_chain pad rng l pos state = Ok (l', pos, code) /\ length code = m * last_L l 1.
Proof.
  induction l as [|e t IH]; intros Hs Hc; cbn [bit_block_size_of encode_chain].
  - exists 1. change (last_L [] 1) with 1. split; [auto|]. split; [lia|]. intros m pos state Hl. eexists; eexists; split; [reflexivity|lia].
  - inv Hs. cbn [chain_nested] in Hc. rewrite last_L_cons. destruct (m_enabled e) eqn:En.
    + destruct Hc as (_ & Hc). pose proof H1 as (HK & HLe & _).
      destruct (loop_exact pad rng t H2 (m_L e) HLe Hc) as (R & HR & Hlast & Henc).
      exists (m_K e * R). split; [apply HR|]. split; [exact Hlast|]. intros m pos state Hl.
      destruct (encode_stage_aligned pad rng e pos state (m * R) H1) as (m1 & c1 & He & Hlc).
      { rewrite Hl. ring. }
      rewrite He. cbn [bind]. destruct (Henc m pos c1 Hlc) as (l' & code & -> & Hlen). cbn [bind]. eauto.
    + destruct (IH H2 Hc) as (B & HB & Hlast & Henc). exists B. split; [exact HB|]. split; [exact Hlast|].
      intros m pos state Hl. destruct (Henc m pos state Hl) as (l' & code & -> & Hlen). cbn [bind]. eauto.
Qed.

Lemma required_bits_encode mg n :
  Forall well_sized (mg_encoders mg) -> chain_nested None (mg_encoders mg) ->
  1 <= n -> (mg_pad mg = true \/ n mod code_block_size mg = 0) ->
  exists k, required_num_data_bits mg n = Ok k /\
    forall data, length data = k -> exists mg' code, encode mg data (Some n) = Ok (mg', code) /\ length code = n.
Proof.
  intros Hs Hc Hn Hp. destruct (block_exact (mg_pad mg) (mg_rng mg) _ Hs Hc) as (B & HB & Hlast & Henc).
  unfold required_num_data_bits. change (code_block_size mg) with (last_L (mg_encoders mg) 1) in *.
  set (C := last_L (mg_encoders mg) 1) in *.
  destruct (Nat.eqb_spec C 0); [lia|]. unfold bit_block_size. rewrite HB. cbn [bind].
  eexists. split; [reflexivity|]. intros data Hd.
  destruct (Henc (n / C) (mg_pos mg) data) as (l' & code & He & Hl); [lia|].
  unfold encode. rewrite He. cbn [bind]. destruct n as [|n1]; [lia|].
  pose proof (Nat.div_mod_eq (S n1) C) as D. pose proof (Nat.mod_upper_bound (S n1) C) as U.
  change (code_block_size mg) with C.
  set (N := S n1) in *. clearbody N. rewrite (Nat.mul_comm (N / C)) in Hl.
  destruct (Nat.ltb_spec N (length code)); [lia|].
  destruct (Nat.ltb_spec (length code) N).
  - destruct Hp as [->|Hp]; [|lia]. cbn [negb]. destruct (Nat.leb_spec C (N - length code)); [lia|].
    eexists; eexists; split; [reflexivity|]. rewrite app_length, draw_length. lia.
  - eexists; eexists; split; [reflexivity|]. lia.
Qed.
