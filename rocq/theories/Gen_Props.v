(** C122: bits from files, and frames with packet headers. *)
From Coq Require Import List Arith Bool Lia.
From Verif Require Import Base BaseLemmas Fec_Model Eval_Model Gen_Model Gen_Spec Gen_Proofs.
Import ListNotations.
Local Open Scope nat_scope.

(** Bytes have eight bits, the most significant first; bytes survive being unpacked and packed, bits survive being packed and unpacked up to less than eight zeros *)
Theorem C122_bytes : forall (file : list nat) (l : bits), bytes file ->
  (forall k b, nth_error file k = Some b -> weight (firstn 8 (skipn (8 * k) (unpackbits file))) = b) /\ length (unpackbits file) = 8 * length file /\
  packbits (unpackbits file) = file /\ exists k, k < 8 /\ (length l + k) mod 8 = 0 /\ unpackbits (packbits l) = l ++ repeat false k.
Proof.
  intros file l H. split; [|split; [apply unpackbits_length|split; [apply pack_unpack; exact H|apply unpack_pack]]].
  intros k b E. rewrite skipn_unpack. assert (S : skipn k file = b :: skipn (S k) file).
  { clear H. revert file E. induction k as [|k IH]; intros [|c f] E; try discriminate; [cbn in E; injection E as ->; reflexivity|]. cbn [skipn]. apply IH. exact E. }
  rewrite S. unfold unpackbits. cbn [map concat]. change (firstn 8 (byte_bits b ++ concat (map byte_bits (skipn (Datatypes.S k) file)))) with (byte_bits b).
  apply byte_weight. apply nth_error_In in E. exact (proj1 (Forall_forall _ _) H b E).
Qed.
Print Assumptions C122_bytes.
Example C122_bytes_met : bytes [165; 0; 255] /\ unpackbits [165] = [true; false; true; false; false; true; false; true].
Proof. split; [repeat constructor; lia|reflexivity]. Qed.

(** Whatever the requests, a file source delivers the file's bits from the start, in order and without gaps; requests for other than whole bytes are refused, and only those, and consume nothing *)
Theorem C122_stream : forall file requests, let answers := fst (ask stream_bits (open_stream file) requests) in
  answered answers = firstn (total requests) (unpackbits file) /\
  Forall2 (fun n a => n mod 8 <> 0 <-> a = Raise RuntimeError) requests answers.
Proof.
  intros file requests answers. destruct (ask_stream requests (open_stream file)) as [s' [_ [_ [A [_ F]]]]]. split; [exact A|].
  clear A. induction F as [|n a l m [H1 H2] _ IH]; constructor; [|exact IH]. unfold whole in *. rewrite Nat.eqb_neq in *. split; assumption.
Qed.
Print Assumptions C122_stream.
Example C122_stream_met : ask stream_bits (open_stream [129; 7]) [8; 3; 8; 16] = ([Ok (unpackbits [129]); Raise RuntimeError; Ok (unpackbits [7]); Ok []], mkStream [129; 7] 2).
Proof. reflexivity. Qed.

(** At the end of the file fewer bits are delivered than requested, without an exception: a modem without error correction then fails to encode them, unless they are as many as it needs *)
Theorem C122_end_of_file_refuted : forall file requests n mg, length (unpackbits file) < total requests + n -> 0 < n -> n mod 8 = 0 -> mg_encoders mg = [] ->
  exists b s', stream_bits (snd (ask stream_bits (open_stream file) requests)) n = (Ok b, s') /\ length b = length (unpackbits file) - total requests /\ length b < n /\
  (exists e, encode mg b (Some n) = Raise e).
Proof.
  intros file requests n mg H H0 Hn Hm. destruct (ask_stream requests (open_stream file)) as [s [E [_ [_ [R _]]]]]. rewrite E. cbn [snd].
  assert (W : whole n = true) by (apply Nat.eqb_eq; exact Hn). destruct (stream_answered s n W) as [s' [E' _]]. eexists. exists s'. split; [exact E'|].
  change (rest (open_stream file)) with (unpackbits file) in R.
  assert (L : length (firstn n (rest s)) = length (unpackbits file) - total requests) by (rewrite firstn_length, R, skipn_length; lia).
  assert (Hlt : length (firstn n (rest s)) < n) by (rewrite L; lia).
  split; [exact L|]. split; [exact Hlt|]. unfold encode. rewrite Hm. cbn [encode_chain bind]. destruct n as [|n]; [lia|]. remember (firstn (S n) (rest s)) as b.
  replace (S n <? length b) with false by (symmetry; apply Nat.ltb_ge; lia). replace (length b <? S n) with true by (symmetry; apply Nat.ltb_lt; lia).
  destruct (mg_pad mg); cbn [negb]; [|eexists; reflexivity]. unfold code_block_size. rewrite Hm. cbn [rev find]. replace (1 <=? S n - length b) with true by (symmetry; apply Nat.leb_le; lia). eexists. reflexivity.
Qed.
Print Assumptions C122_end_of_file_refuted.
Example C122_end_of_file_refuted_met : length (unpackbits [129; 7]) < total [8] + 16 /\ 0 < 16 /\ 16 mod 8 = 0.
Proof. split; [cbn; lia|split; [lia|reflexivity]]. Qed.

(** A source that is saved and loaded starts again: its bits are those of the file's beginning, not the next ones *)
Theorem C122_reloaded : forall file before after, let s := snd (ask stream_bits (open_stream file) before) in
  answered (fst (ask stream_bits s after)) = firstn (total after) (skipn (total before) (unpackbits file)) /\
  answered (fst (ask stream_bits (reload s) after)) = firstn (total after) (unpackbits file).
Proof.
  intros file before after s. destruct (ask_stream before (open_stream file)) as [s1 [E1 [C1 [_ [R1 _]]]]]. assert (Es : s = s1) by (unfold s; rewrite E1; reflexivity). split.
  - destruct (ask_stream after s) as [s2 [_ [_ [A2 _]]]]. rewrite A2, Es, R1. reflexivity.
  - destruct (ask_stream after (reload s)) as [s2 [_ [_ [A2 _]]]]. rewrite A2. unfold reload, rest, open_stream. cbn [position contents skipn]. rewrite Es, C1. reflexivity.
Qed.
Print Assumptions C122_reloaded.
Example C122_reloaded_met : let s := snd (ask stream_bits (open_stream [129; 7]) [8]) in fst (ask stream_bits s [8]) = [Ok (unpackbits [7])] /\ fst (ask stream_bits (reload s) [8]) = [Ok (unpackbits [129])].
Proof. split; reflexivity. Qed.

(** Without packets frames are the source's bits, and what is unpacked is what was received *)
Theorem C122_stub : forall file before n frame s', n mod 8 = 0 -> stub_pack stream_bits (snd (ask stream_bits (open_stream file) before)) n = (Ok frame, s') ->
  frame = firstn n (skipn (total before) (unpackbits file)) /\ stub_unpack frame = Ok frame.
Proof.
  intros file before n frame s' Hn E. split; [|reflexivity]. destruct (ask_stream before (open_stream file)) as [s1 [E1 [_ [_ [R1 _]]]]]. rewrite E1 in E. cbn [snd] in E.
  destruct (stream_answered s1 n) as [s2 [E2 _]]; [apply Nat.eqb_eq; exact Hn|]. unfold stub_pack in E. rewrite E2 in E. injection E as <- _. rewrite R1. reflexivity.
Qed.
Print Assumptions C122_stub.
Example C122_stub_met : exists s', stub_pack stream_bits (snd (ask stream_bits (open_stream [129; 7]) [8])) 8 = (Ok (unpackbits [7]), s').
Proof. eexists. reflexivity. Qed.

Section Packets.
Context {S : Type} (src : source S).
(** With a packet whose header has as many bytes as a default one of its type, and frames of whole bytes: the frame has the requested size, begins with the default header and unpacks to the source's bits *)
Theorem C122_scapy : forall g s s' n b, src s (n - packet_num_bits g) = (Ok b, s') -> length b = n - packet_num_bits g -> packet_num_bits g <= n -> n mod 8 = 0 ->
  length (new_header g (packbits b)) = packet_length g ->
  exists frame, scapy_pack g src s n = (Ok frame, s') /\ length frame = n /\ firstn (packet_num_bits g) frame = unpackbits (new_header g (packbits b)) /\ scapy_unpack g frame = Ok b.
Proof.
  intros g s s' n b E Hb Hn Hm Hh. unfold scapy_pack. replace (n <? packet_num_bits g) with false by (symmetry; apply Nat.ltb_ge; exact Hn). rewrite E.
  assert (M : length b mod 8 = 0). { rewrite Hb. apply Nat.mod_divide in Hm; [|lia]. destruct Hm as [a ->]. unfold packet_num_bits. rewrite <- Nat.mul_sub_distr_r. apply Nat.mod_mul. lia. }
  pose proof (pack_exact b M) as P. assert (L : length (unpackbits (new_header g (packbits b))) = packet_num_bits g) by (rewrite unpackbits_length, Hh; unfold packet_num_bits; lia).
  eexists. split; [reflexivity|]. rewrite unpackbits_app, P. split; [rewrite app_length, L, Hb; lia|]. split.
  - rewrite <- L, firstn_app, Nat.sub_diag, firstn_all. apply app_nil_r.
  - unfold scapy_unpack. rewrite app_length, L. replace (packet_num_bits g + length b <? packet_num_bits g) with false by (symmetry; apply Nat.ltb_ge; lia).
    rewrite <- L, skipn_app, Nat.sub_diag, skipn_all. reflexivity.
Qed.
(** Too small frames are refused, on both sides, and nothing is taken from the source *)
Theorem C122_scapy_small : forall g s n frame, (n < packet_num_bits g -> scapy_pack g src s n = (Raise ValueError, s)) /\ (length frame < packet_num_bits g <-> scapy_unpack g frame = Raise ValueError).
Proof.
  intros g s n frame. unfold scapy_pack, scapy_unpack. split.
  - intros H. replace (n <? packet_num_bits g) with true by (symmetry; apply Nat.ltb_lt; exact H). reflexivity.
  - destruct (Nat.ltb_spec (length frame) (packet_num_bits g)); split; intros; try reflexivity; try assumption; try discriminate; lia.
Qed.
(** But the fields of the given packet are lost: packets of one type and length make the same frames *)
Theorem C122_scapy_fields_refuted : forall g g' s n, new_header g = new_header g' -> packet_length g = packet_length g' -> scapy_pack g src s n = scapy_pack g' src s n.
Proof. intros [l h] [l' h'] s n. cbn. intros -> ->. reflexivity. Qed.
(** Packets of several layers are rendered by their first one alone: the frame is that much too short, and that many of the first payload bits are dropped when it is unpacked *)
Theorem C122_scapy_layers_refuted : forall g s s' n b missing, src s (n - packet_num_bits g) = (Ok b, s') -> length b = n - packet_num_bits g -> packet_num_bits g <= n -> n mod 8 = 0 ->
  length (new_header g (packbits b)) + missing = packet_length g -> 8 * missing <= length b ->
  exists frame, scapy_pack g src s n = (Ok frame, s') /\ length frame = n - 8 * missing /\ scapy_unpack g frame = (if n - 8 * missing <? packet_num_bits g then Raise ValueError else Ok (skipn (8 * missing) b)).
Proof.
  intros g s s' n b missing E Hb Hn Hm Hh Hl. unfold scapy_pack. replace (n <? packet_num_bits g) with false by (symmetry; apply Nat.ltb_ge; exact Hn). rewrite E.
  assert (M : length b mod 8 = 0). { rewrite Hb. apply Nat.mod_divide in Hm; [|lia]. destruct Hm as [a ->]. unfold packet_num_bits. rewrite <- Nat.mul_sub_distr_r. apply Nat.mod_mul. lia. }
  pose proof (pack_exact b M) as P. assert (L : length (unpackbits (new_header g (packbits b))) + 8 * missing = packet_num_bits g) by (rewrite unpackbits_length; unfold packet_num_bits; lia).
  eexists. split; [reflexivity|]. rewrite unpackbits_app, P. assert (F : length (unpackbits (new_header g (packbits b)) ++ b) = n - 8 * missing) by (rewrite app_length; lia). split; [exact F|].
  unfold scapy_unpack. rewrite F. destruct (n - 8 * missing <? packet_num_bits g); [reflexivity|]. rewrite skipn_app, skipn_all2 by lia. cbn [app]. do 2 f_equal. lia.
Qed.
(** Frames of other than whole bytes are longer than requested, so that a modem without error correction fails to encode them *)
Theorem C122_scapy_padding_refuted : forall g s s' n b mg, src s (n - packet_num_bits g) = (Ok b, s') -> length b = n - packet_num_bits g -> packet_num_bits g <= n -> n mod 8 <> 0 ->
  length (new_header g (packbits b)) = packet_length g -> mg_encoders mg = [] ->
  exists frame, scapy_pack g src s n = (Ok frame, s') /\ n < length frame < n + 8 /\ length frame mod 8 = 0 /\ encode mg frame (Some n) = Raise RuntimeError.
Proof.
  intros g s s' n b mg E Hb Hn Hm Hh Hmg. unfold scapy_pack. replace (n <? packet_num_bits g) with false by (symmetry; apply Nat.ltb_ge; exact Hn). rewrite E.
  destruct (unpack_pack b) as [k [Hk [Hmod P]]]. assert (L : length (unpackbits (new_header g (packbits b))) = packet_num_bits g) by (rewrite unpackbits_length, Hh; unfold packet_num_bits; lia).
  eexists. split; [reflexivity|]. rewrite unpackbits_app, P. assert (F : length (unpackbits (new_header g (packbits b)) ++ b ++ repeat false k) = n + k) by (rewrite !app_length, repeat_length; lia).
  assert (K : k <> 0). { intros ->. rewrite Nat.add_0_r in Hmod. apply Hm. apply Nat.mod_divide in Hmod; [|lia]. destruct Hmod as [a Ha]. replace n with ((packet_length g + a) * 8) by (unfold packet_num_bits in *; lia). apply Nat.mod_mul. lia. }
  rewrite F. split; [lia|]. split.
  - replace (n + k) with ((length b + k) + packet_length g * 8) by (unfold packet_num_bits in *; lia). rewrite Nat.mod_add by lia. exact Hmod.
  - unfold encode. rewrite Hmg. cbn [encode_chain bind]. rewrite F. destruct n as [|n]; [exfalso; apply Hm; reflexivity|]. replace (Datatypes.S n <? Datatypes.S n + k) with true by (symmetry; apply Nat.ltb_lt; lia). reflexivity.
Qed.
End Packets.
Print Assumptions C122_scapy.
Print Assumptions C122_scapy_small.
Print Assumptions C122_scapy_fields_refuted.
Print Assumptions C122_scapy_layers_refuted.
Print Assumptions C122_scapy_padding_refuted.
Example C122_scapy_met : let g := mkScapy 2 (fun p => [69; length p]) in
  fst (scapy_pack g stream_bits (open_stream [129; 7]) 32) = Ok (unpackbits [69; 2; 129; 7]) /\ scapy_unpack g (unpackbits [69; 2; 129; 7]) = Ok (unpackbits [129; 7]).
Proof. split; reflexivity. Qed.
Example C122_scapy_small_met : let g := mkScapy 2 (fun p => [69; length p]) in scapy_pack g stream_bits (open_stream [129; 7]) 15 = (Raise ValueError, open_stream [129; 7]) /\ scapy_unpack g [true] = Raise ValueError.
Proof. split; reflexivity. Qed.
Example C122_scapy_layers_refuted_met : let g := mkScapy 3 (fun p => [69; length p]) in
  fst (scapy_pack g stream_bits (open_stream [129; 7]) 40) = Ok (unpackbits [69; 2; 129; 7]) /\ scapy_unpack g (unpackbits [69; 2; 129; 7]) = Ok (unpackbits [7]).
Proof. split; reflexivity. Qed.
Example C122_scapy_padding_refuted_met : let g := mkScapy 2 (fun p => [69; length p]) in
  fst (scapy_pack g (random_bits (fun _ i => Nat.odd i)) 0 19) = Ok (unpackbits [69; 1; 64]).
Proof. reflexivity. Qed.

(** A transmission's bits include the header, a reception's do not: even over a perfect link a bit error evaluator finds errors, unless all the frame's bits are zero *)
Lemma shifted : forall (h : nat) (l : bits), 0 < h -> (forall i, i < length l -> nth i l false = nth (i + h) l false) -> forall i, nth i l false = false.
Proof.
  intros h l Hh H i. remember (length l - i) as d eqn:Ed. revert i Ed. induction d as [d IH] using lt_wf_ind. intros i Ed.
  destruct (le_lt_dec (length l) i) as [G|G]; [apply nth_overflow; exact G|]. rewrite H by exact G. destruct (le_lt_dec (length l) (i + h)) as [G'|G']; [apply nth_overflow; exact G'|].
  apply (IH (length l - (i + h))); [lia|reflexivity].
Qed.
Theorem C122_scapy_evaluation_refuted : forall g frame payload, 0 < packet_length g -> scapy_unpack g frame = Ok payload ->
  ((forall e, In e (bit_errors frame payload) -> e = false) <-> forall b, In b frame -> b = false).
Proof.
  intros g frame payload Hg E. unfold scapy_unpack in E. destruct (Nat.ltb_spec (length frame) (packet_num_bits g)) as [|L]; [discriminate|]. injection E as <-.
  set (h := packet_num_bits g) in *. assert (Hh : 0 < h) by (unfold h, packet_num_bits; lia). unfold bit_errors, pad. rewrite skipn_length, Nat.max_r by lia.
  rewrite Nat.sub_diag. cbn [repeat]. rewrite app_nil_r. replace (length frame - (length frame - h)) with h by lia.
  assert (N : forall i, nth i (skipn h frame ++ repeat false h) false = nth (i + h) frame false).
  { intros i. assert (SK : forall k (l : bits), nth i (skipn k l) false = nth (i + k) l false) by (intros k; induction k as [|k IH]; intros l; [rewrite Nat.add_0_r; reflexivity|destruct l; [rewrite skipn_nil; destruct i, k; reflexivity|rewrite <- plus_n_Sm; cbn [skipn nth]; apply IH]]).
    destruct (le_lt_dec (length frame - h) i) as [G|G].
    - rewrite app_nth2 by (rewrite skipn_length; exact G). rewrite nth_repeat. symmetry. apply nth_overflow. lia.
    - rewrite app_nth1 by (rewrite skipn_length; exact G). apply SK. }
  assert (LN : length (skipn h frame ++ repeat false h) = length frame) by (rewrite app_length, skipn_length, repeat_length; lia).
  remember (skipn h frame ++ repeat false h) as other. split.
  - intros H b Hb. assert (Z : forall i, nth i frame false = false).
    { apply (shifted h frame Hh). intros i Hi. rewrite <- N. assert (I : In (xorb (nth i frame false) (nth i other false)) (map (fun '(a, b) => xorb a b) (combine frame other))).
      { apply in_map_iff. exists (nth i frame false, nth i other false). split; [reflexivity|]. rewrite <- combine_nth by (symmetry; exact LN). apply nth_In. rewrite combine_length, LN. lia. }
      apply H in I. apply xorb_eq in I. exact I. }
    apply (In_nth _ _ false) in Hb as [i [_ Hi]]. rewrite <- Hi. apply Z.
  - intros H e He. apply in_map_iff in He as [[a b] [<- Hi]]. pose proof (in_combine_l _ _ _ _ Hi) as Ha. pose proof (in_combine_r _ _ _ _ Hi) as Hb.
    rewrite (H a Ha). apply (In_nth _ _ false) in Hb as [i [_ Hb]]. rewrite N in Hb. destruct (le_lt_dec (length frame) (i + h)) as [G|G]; [rewrite nth_overflow in Hb by exact G; subst b; reflexivity|].
    rewrite (H _ (nth_In _ false G)) in Hb. subst b. reflexivity.
Qed.
Print Assumptions C122_scapy_evaluation_refuted.
Example C122_scapy_evaluation_refuted_met : let g := mkScapy 2 (fun p => [69; length p]) in exists payload, scapy_unpack g (unpackbits [69; 2; 129; 7]) = Ok payload /\ In true (bit_errors (unpackbits [69; 2; 129; 7]) payload).
Proof. eexists. split; [reflexivity|]. vm_compute. tauto. Qed.
