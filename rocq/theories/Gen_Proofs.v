(** Lemmas on sources of bits and generators of frames. *)
From Coq Require Import List Arith Bool Lia.
From Verif Require Import Base BaseLemmas Gen_Model Gen_Spec.
Import ListNotations.
Local Open Scope nat_scope.

Lemma byte_bits_length : forall b, length (byte_bits b) = 8.
Proof. reflexivity. Qed.
Lemma unpackbits_length : forall l, length (unpackbits l) = 8 * length l.
Proof.
  induction l as [|b l IH]; [reflexivity|]. unfold unpackbits in *. cbn [map concat]. rewrite app_length, IH, byte_bits_length. cbn [length]. lia.
Qed.
Lemma unpackbits_app : forall a b, unpackbits (a ++ b) = unpackbits a ++ unpackbits b.
Proof. intros. unfold unpackbits. rewrite map_app, concat_app. reflexivity. Qed.
Lemma eight : forall l : bits, length l = 8 -> exists a b c d e f g h, l = [a; b; c; d; e; f; g; h].
Proof.
  intros l H. destruct l as [|a [|b [|c [|d [|e [|f [|g [|h [|i l]]]]]]]]]; try (cbn in H; lia). exists a, b, c, d, e, f, g, h. reflexivity.
Qed.
Lemma byte_round : forall l, length l <= 8 -> byte_bits (byte_of l) = l ++ repeat false (8 - length l).
Proof.
  intros l H. unfold byte_of. destruct (eight (l ++ repeat false (8 - length l))) as [a [b [c [d [e [f [g [h E]]]]]]]]; [rewrite app_length, repeat_length; lia|].
  rewrite E. destruct a, b, c, d, e, f, g, h; vm_compute; reflexivity.
Qed.
Lemma byte_of_bits : forall b, b < 256 -> byte_of (byte_bits b) = b.
Proof.
  intros b H. assert (K : forallb (fun b => byte_of (byte_bits b) =? b) (seq 0 256) = true) by (vm_compute; reflexivity).
  rewrite forallb_forall in K. apply Nat.eqb_eq, K, in_seq. lia.
Qed.
Lemma byte_weight : forall b, b < 256 -> weight (byte_bits b) = b.
Proof.
  intros b H. assert (K : forallb (fun b => weight (byte_bits b) =? b) (seq 0 256) = true) by (vm_compute; reflexivity).
  rewrite forallb_forall in K. apply Nat.eqb_eq, K, in_seq. lia.
Qed.
Lemma byte_of_small : forall l, length l <= 8 -> byte_of l < 256.
Proof.
  intros l H. unfold byte_of. destruct (eight (l ++ repeat false (8 - length l))) as [a [b [c [d [e [f [g [h E]]]]]]]]; [rewrite app_length, repeat_length; lia|].
  rewrite E. cbn [fold_left]. destruct a, b, c, d, e, f, g, h; lia.
Qed.
Lemma unpack_blocks : forall n l, length l <= 8 * n -> 8 * n < length l + 8 -> unpackbits (map byte_of (blocks_of n 8 l)) = l ++ repeat false (8 * n - length l).
Proof.
  induction n as [|n IH]; intros l H1 H2.
  - destruct l; [reflexivity|cbn in H1; lia].
  - rewrite blocks_of_S. cbn [map]. unfold unpackbits. cbn [map concat]. fold (unpackbits (map byte_of (blocks_of n 8 (skipn 8 l)))).
    rewrite byte_round by (rewrite firstn_length; lia). destruct (le_lt_dec 8 (length l)) as [G|G].
    + rewrite IH by (rewrite skipn_length; lia). rewrite firstn_length_le by exact G. cbn [Nat.sub repeat]. rewrite app_nil_r, skipn_length, app_assoc, firstn_skipn. f_equal. f_equal. lia.
    + assert (n = 0) by lia. subst n. rewrite firstn_all2 by lia. cbn [blocks_of seq map unpackbits concat]. rewrite app_nil_r. reflexivity.
Qed.
Lemma unpack_pack : forall l, exists k, k < 8 /\ (length l + k) mod 8 = 0 /\ unpackbits (packbits l) = l ++ repeat false k.
Proof.
  intros l. unfold packbits. destruct (ceil_div_spec (length l) 8 ltac:(lia)) as [H1 H2]. set (n := ceil_div (length l) 8) in *.
  assert (H3 : 8 * n < length l + 8). { destruct n as [|n]; [lia|]. destruct (le_lt_dec (length l) (n * 8)) as [G|G]; [specialize (H2 n G); lia|lia]. }
  exists (8 * n - length l). split; [lia|]. split; [|apply unpack_blocks; lia]. replace (length l + (8 * n - length l)) with (n * 8) by lia. apply Nat.mod_mul. lia.
Qed.
Lemma pack_exact : forall l, length l mod 8 = 0 -> unpackbits (packbits l) = l.
Proof.
  intros l H. destruct (unpack_pack l) as [k [Hk [Hm E]]]. rewrite E. assert (k = 0).
  { apply Nat.mod_divide in H; [|lia]. destruct H as [a Ha]. rewrite Ha in Hm. rewrite Nat.add_comm, Nat.mod_add in Hm by lia. rewrite Nat.mod_small in Hm by exact Hk. exact Hm. }
  subst k. apply app_nil_r.
Qed.
Lemma pack_unpack : forall l, bytes l -> packbits (unpackbits l) = l.
Proof.
  intros l H. unfold packbits. rewrite unpackbits_length, (Nat.mul_comm 8), ceil_div_exact by lia.
  induction H as [|b l Hb Hl IH]; [reflexivity|]. cbn [length]. rewrite blocks_of_S. cbn [map]. unfold unpackbits. cbn [map concat]. fold (unpackbits l).
  replace (firstn 8 (byte_bits b ++ unpackbits l)) with (byte_bits b) by reflexivity. replace (skipn 8 (byte_bits b ++ unpackbits l)) with (unpackbits l) by reflexivity.
  rewrite byte_of_bits by exact Hb. rewrite IH. reflexivity.
Qed.
Lemma pack_length : forall l, length (packbits l) = ceil_div (length l) 8.
Proof. intros l. unfold packbits, blocks_of. rewrite !map_length, seq_length. reflexivity. Qed.

(** ** Streams *)
Lemma whole_spec : forall n, whole n = true -> ceil_div n 8 * 8 = n.
Proof. intros n H. apply Nat.eqb_eq in H. apply Nat.mod_divide in H; [|lia]. destruct H as [a ->]. rewrite ceil_div_exact by lia. reflexivity. Qed.
Lemma not_whole : forall n, whole n = false -> n < ceil_div n 8 * 8.
Proof.
  intros n H. apply Nat.eqb_neq in H. destruct (ceil_div_spec n 8 ltac:(lia)) as [G _]. destruct (Nat.eq_dec n (ceil_div n 8 * 8)) as [E|N]; [|lia].
  exfalso. apply H. rewrite E. apply Nat.mod_mul. lia.
Qed.
Lemma stream_refused : forall s n, whole n = false -> stream_bits s n = (Raise RuntimeError, s).
Proof. intros s n H. unfold stream_bits. apply not_whole in H. replace (0 <? ceil_div n 8 * 8 - n) with true by (symmetry; apply Nat.ltb_lt; lia). reflexivity. Qed.
Lemma firstn_unpack : forall k l, firstn (8 * k) (unpackbits l) = unpackbits (firstn k l).
Proof.
  intros k l. rewrite <- (firstn_skipn k l) at 1. rewrite unpackbits_app. destruct (le_lt_dec k (length l)) as [G|G].
  - assert (E : length (unpackbits (firstn k l)) = 8 * k) by (rewrite unpackbits_length, firstn_length_le by exact G; reflexivity).
    rewrite <- E, firstn_app, Nat.sub_diag, firstn_all. apply app_nil_r.
  - rewrite skipn_all2 by lia. cbn. rewrite app_nil_r. apply firstn_all2. rewrite unpackbits_length, firstn_length. lia.
Qed.
Lemma skipn_unpack : forall k l, skipn (8 * k) (unpackbits l) = unpackbits (skipn k l).
Proof.
  intros k l. rewrite <- (firstn_skipn k l) at 1. rewrite unpackbits_app. destruct (le_lt_dec k (length l)) as [G|G].
  - assert (E : length (unpackbits (firstn k l)) = 8 * k) by (rewrite unpackbits_length, firstn_length_le by exact G; reflexivity).
    rewrite <- E, skipn_app, Nat.sub_diag, skipn_all. reflexivity.
  - rewrite (skipn_all2 l) by lia. cbn [unpackbits map concat]. rewrite app_nil_r. apply skipn_all2. rewrite unpackbits_length, firstn_length. lia.
Qed.
(** What is left of a file *)
Definition rest (s : stream) : bits := unpackbits (skipn (position s) (contents s)).
Lemma stream_answered : forall s n, whole n = true -> exists s', stream_bits s n = (Ok (firstn n (rest s)), s') /\ contents s' = contents s /\ rest s' = skipn n (rest s).
Proof.
  intros s n H. pose proof (whole_spec n H) as E. unfold stream_bits. replace (0 <? ceil_div n 8 * 8 - n) with false by (symmetry; apply Nat.ltb_ge; lia).
  set (k := ceil_div n 8) in *. exists (mkStream (contents s) (position s + length (firstn k (skipn (position s) (contents s))))). split; [|split; [reflexivity|]].
  - unfold rest. replace n with (8 * k) by lia. rewrite firstn_unpack. reflexivity.
  - unfold rest. cbn [position contents]. replace n with (8 * k) by lia. rewrite skipn_unpack. f_equal. rewrite firstn_length, skipn_length.
    assert (SS : forall a b (l : list nat), skipn a (skipn b l) = skipn (b + a) l) by (intros a b; induction b as [|b IH]; intros l; [reflexivity|destruct l; [rewrite !skipn_nil; reflexivity|cbn [skipn Nat.add]; apply IH]]).
    rewrite SS. destruct (Nat.le_ge_cases k (length (contents s) - position s)) as [L|L].
    + rewrite Nat.min_l by exact L. reflexivity.
    + rewrite Nat.min_r by exact L. rewrite !skipn_all2 by lia. reflexivity.
Qed.
Lemma ask_stream : forall requests s, exists s', ask stream_bits s requests = (fst (ask stream_bits s requests), s') /\ contents s' = contents s /\
  answered (fst (ask stream_bits s requests)) = firstn (total requests) (rest s) /\ rest s' = skipn (total requests) (rest s) /\
  Forall2 (fun n a => whole n = false <-> a = Raise RuntimeError) requests (fst (ask stream_bits s requests)).
Proof.
  assert (SS : forall a b (l : bits), skipn a (skipn b l) = skipn (b + a) l) by (intros a b; induction b as [|b IHb]; intros l; [reflexivity|destruct l; [rewrite !skipn_nil; reflexivity|cbn [skipn Nat.add]; apply IHb]]).
  assert (FF : forall a b (l : bits), firstn a l ++ firstn b (skipn a l) = firstn (a + b) l).
  { intros a. induction a as [|a IHa]; intros b l; [reflexivity|]. destruct l; [rewrite skipn_nil, !firstn_nil; reflexivity|]. cbn [firstn skipn Nat.add app]. rewrite IHa. reflexivity. }
  induction requests as [|n r IH]; intros s; cbn [ask].
  - exists s. repeat split; try constructor.
  - unfold total in *. cbn [filter]. destruct (whole n) eqn:W.
    + destruct (stream_answered s n W) as [s1 [E1 [C1 R1]]]. rewrite E1. destruct (IH s1) as [s2 [E2 [C2 [A2 [R2 F2]]]]]. destruct (ask stream_bits s1 r) as [l t]. cbn [fst] in *.
      exists s2. assert (t = s2) by congruence. subst t. split; [reflexivity|]. split; [congruence|]. cbn [answered fold_right]. rewrite A2, R2, R1, FF, SS. split; [reflexivity|]. split; [reflexivity|].
      constructor; [split; congruence|exact F2].
    + rewrite (stream_refused s n W). destruct (IH s) as [s2 [E2 [C2 [A2 [R2 F2]]]]]. destruct (ask stream_bits s r) as [l t]. cbn [fst] in *.
      exists s2. assert (t = s2) by congruence. subst t. split; [reflexivity|]. split; [exact C2|]. cbn [answered]. split; [exact A2|]. split; [exact R2|]. constructor; [split; intros _; [reflexivity|exact W]|exact F2].
Qed.
