(** C117: 5G NR waveforms, their synchronization sequences, durations and serialization. *)
From Coq Require Import List Arith Bool ZArith QArith Lia Lqa.
From Verif Require Import Base BaseLemmas Grid_Model Grid_Spec Grid_Proofs Nr_Model Nr_Spec Nr_Proofs.
Import ListNotations.
Local Open Scope nat_scope.

(** Subcarriers are spaced by 15 kHz times two to the numerology, bandwidths are twelve subcarriers per resource block; numerologies beyond 0 … 6 are rejected *)
Theorem C117_spacing : forall mu rb,
  ((0 <= mu <= 6)%Z -> subcarrier_spacing mu = Ok (15000 * 2 ^ mu)%Z /\ bandwidth mu rb = Ok (12 * rb * (15000 * 2 ^ mu))%Z) /\
  (~ (0 <= mu <= 6)%Z -> subcarrier_spacing mu = Raise ValueError /\ bandwidth mu rb = Raise ValueError).
Proof.
  intros mu rb. unfold bandwidth, subcarrier_spacing. split; intros H.
  - replace ((mu <? 0)%Z || (6 <? mu)%Z) with false by (symmetry; apply orb_false_iff; split; apply Z.ltb_ge; lia). cbn [bind]. split; [reflexivity|]. f_equal. lia.
  - replace ((mu <? 0)%Z || (6 <? mu)%Z) with true by (symmetry; apply orb_true_iff; rewrite !Z.ltb_lt; lia). split; reflexivity.
Qed.
Print Assumptions C117_spacing.
(** … but only there: waveforms of numerology 7 or -1 are built *)
Theorem C117_numerology_refuted : (forall rb, (1 <= rb)%Z -> construct 7 rb = Ok tt /\ construct (-1) rb = Ok tt) /\ subcarrier_spacing 7 = Raise ValueError /\ subcarrier_spacing (-1) = Raise ValueError.
Proof. split; [|split; reflexivity]. intros rb H. unfold construct. apply Z.ltb_ge in H. rewrite H. split; reflexivity. Qed.
Print Assumptions C117_numerology_refuted.

(** The primary synchronization sequence has 127 signs that are uncorrelated under every cyclic shift … *)
Theorem C117_pss : length pss = 127 /\ List.Forall (fun x => x = 1%Z \/ x = (-1)%Z) pss /\
  forall k, correlation pss k = if k mod 127 =? 0 then 127%Z else (-1)%Z.
Proof.
  split; [reflexivity|]. split.
  - apply Forall_forall. intros x Hx. assert (K : forallb (fun x => (x =? 1)%Z || (x =? -1)%Z) pss = true) by (vm_compute; reflexivity).
    rewrite forallb_forall in K. specialize (K x Hx). apply orb_true_iff in K. destruct K as [K|K]; apply Z.eqb_eq in K; [left|right]; exact K.
  - intros k. rewrite correlation_periodic by (vm_compute; discriminate). rewrite pss_length. assert (Hk : k mod 127 < 127) by (apply Nat.mod_upper_bound; lia).
    apply Z.eqb_eq. apply (check_all (fun k => (correlation pss k =? (if Nat.eqb k 0 then 127 else -1))%Z) 127); [vm_compute; reflexivity|exact Hk].
Qed.
Print Assumptions C117_pss.
(** … and every sign is computed from one of the generated bits, so that no index is out of range *)
Theorem C117_pss_in_range : forall n, n < 127 -> exists b, nth_error pss_bits ((n + 43 * 0) mod 127) = Some b /\ nth n pss 0%Z = (1 - 2 * Z.of_nat b)%Z.
Proof.
  intros n Hn. assert (Hm : (n + 43 * 0) mod 127 < length pss_bits) by (change (length pss_bits) with 127; apply Nat.mod_upper_bound; lia).
  exists (nth ((n + 43 * 0) mod 127) pss_bits 0). split; [apply nth_error_nth'; exact Hm|]. unfold pss.
  apply (nth_tabulated (fun n => (1 - 2 * Z.of_nat (nth ((n + 43 * 0) mod 127)%nat pss_bits 0%nat))%Z)). exact Hn.
Qed.
Print Assumptions C117_pss_in_range.
Example C117_pss_in_range_met : 126 < 127.
Proof. lia. Qed.
(** … but it is that of the standard for none of the three cell identities: it is shifted by 95, because the initial bits are in reverse order *)
Theorem C117_pss_standard_refuted : forall x, standard_bits x ->
  (forall cell, cell <= 2 -> exists n, n < 127 /\ nth n pss 0%Z <> standard_pss x (43 * cell) n) /\ (forall n, n < 127 -> nth n pss 0%Z = standard_pss x 95 n).
Proof.
  intros x Hx. pose proof (standard_is_table x Hx) as T. split.
  - assert (E : forall cell n, standard_pss x (43 * cell) n = (1 - 2 * Z.of_nat (nth ((n + 43 * cell) mod 127)%nat standard_table 0%nat))%Z).
    { intros cell n. unfold standard_pss. rewrite T by (apply Nat.mod_upper_bound; lia). reflexivity. }
    intros [|[|[|cell]]] Hc; [| | |lia].
    + exists 0. split; [lia|]. rewrite E. vm_compute. discriminate.
    + exists 0. split; [lia|]. rewrite E. vm_compute. discriminate.
    + exists 3. split; [lia|]. rewrite E. vm_compute. discriminate.
  - intros n Hn. unfold standard_pss. rewrite T by (apply Nat.mod_upper_bound; lia).
    apply Z.eqb_eq. apply (check_all (fun n => (nth n pss 0 =? (1 - 2 * Z.of_nat (nth ((n + 95) mod 127)%nat standard_table 0%nat)))%Z) 127); [vm_compute; reflexivity|exact Hn].
Qed.
Print Assumptions C117_pss_standard_refuted.
(** Such a sequence exists *)
Example C117_pss_standard_met : exists x, standard_bits x.
Proof.
  set (step := fun v : list nat => tl v ++ [(nth 4 v 0 + nth 0 v 0) mod 2]). set (st := fun n => Nat.iter n step [0; 1; 1; 0; 1; 1; 1]).
  assert (L : forall n, length (st n) = 7).
  { induction n as [|n IH]; [reflexivity|]. change (st (S n)) with (step (st n)). unfold step. rewrite app_length. destruct (st n) as [|a l]; [discriminate|]. cbn [tl length] in *. lia. }
  assert (Sh : forall k n, k < 6 -> nth k (st (S n)) 0 = nth (S k) (st n) 0).
  { intros k n Hk. change (st (S n)) with (step (st n)). unfold step. specialize (L n). destruct (st n) as [|a l]; [discriminate|]. cbn [tl length] in *. rewrite app_nth1 by lia. reflexivity. }
  assert (Sk : forall k n, k <= 6 -> nth 0 (st (n + k)) 0 = nth k (st n) 0).
  { induction k as [|k IH]; intros n Hk; [rewrite Nat.add_0_r; reflexivity|]. replace (n + S k) with (S n + k) by lia. rewrite IH by lia. apply Sh. lia. }
  exists (fun n => nth 0 (st n) 0). split; [|reflexivity]. intros i. replace (i + 7) with (S i + 6) by lia. rewrite (Sk 6 (S i)), (Sk 4 i) by lia.
  change (st (S i)) with (step (st i)). unfold step. pose proof (L i) as Li. destruct (st i) as [|a l]; [discriminate|]. cbn [tl]. cbn [length] in Li. rewrite app_nth2 by lia.
  replace (6 - length l) with 0 by lia. reflexivity.
Qed.
(** The secondary synchronization sequence is never returned *)
Theorem C117_sss_refuted : sss = Raise ValueError.
Proof. vm_compute. reflexivity. Qed.
Print Assumptions C117_sss_refuted.
(** Pilot sections with the primary sequence raise in every 5G NR waveform, inside and in front of the frame *)
Theorem C117_pss_section_refuted : forall A (f : Z -> A) zero rb,
  place_pilot_word zero (rb * rb_subcarriers) (map f pss) = Raise ValueError /\ generate_pilot (rb * rb_subcarriers) (map f pss) = Raise ValueError.
Proof.
  intros A f zero rb. assert (L : length (map f pss) = 127) by (rewrite map_length; apply pss_length).
  assert (N : (127 =? rb * rb_subcarriers) = false) by (apply Nat.eqb_neq; unfold rb_subcarriers; lia). split.
  - unfold place_pilot_word, masked_assign. rewrite count_sel_repeat, L, N. destruct (map f pss) as [|? [|? ?]]; [reflexivity|discriminate|reflexivity].
  - unfold generate_pilot, assign. rewrite L, N. destruct (map f pss) as [|? [|? ?]]; [reflexivity|discriminate|reflexivity].
Qed.
Print Assumptions C117_pss_section_refuted.

(** ** Grids *)
(** The masks of the words that carry sequences, for at least eleven resource blocks *)
Theorem C117_sync_mask : forall rb ty, 11 <= rb -> ty <> NULL ->
  z_mask ty 1 (sync_elements (Z.of_nat (rb * rb_subcarriers))) = map (is_type ty) (sync_word rb).
Proof.
  intros rb ty H Hty. unfold z_mask, sync_elements, z_subcarriers, rb_subcarriers. cbn [fold_left snd fst].
  replace (Z.of_nat (rb * 12) / 2)%Z with (Z.of_nat (6 * rb)) by (replace (Z.of_nat (rb * 12)) with (Z.of_nat (6 * rb) * 2)%Z by lia; rewrite Z.div_mul by lia; reflexivity).
  replace (Z.to_nat _) with (12 * rb) by lia. cbn [mask_row fst snd]. replace (etype_eqb NULL ty) with false by (destruct ty; [reflexivity|reflexivity|congruence]).
  rewrite repeat_length. cbn [repeat concat]. rewrite app_nil_r.
  assert (C : forall x, (0 <= x <= Z.of_nat (12 * rb))%Z -> clip (12 * rb) x = Z.to_nat x).
  { intros x Hx. unfold clip. replace (x <? 0)%Z with false by (symmetry; apply Z.ltb_ge; lia). lia. }
  rewrite !C by lia. rewrite firstn_all2.
  2:{ destruct (etype_eqb REFERENCE ty); [unfold set_slice; rewrite map_length, seq_length|]; rewrite repeat_length; lia. }
  unfold sync_word. rewrite !map_app, !map_repeat'. replace (is_type ty (Some NULL)) with false by (destruct ty; [reflexivity|reflexivity|congruence]).
  destruct ty; [| |congruence]; cbn [etype_eqb is_type].
  - unfold set_slice. rewrite repeat_length. apply nth_ext with false false; [rewrite map_length, seq_length, !app_length, !repeat_length; lia|].
    rewrite map_length, seq_length. intros k Hk. rewrite nth_tabulated by exact Hk. rewrite nth_repeat.
    destruct (Nat.lt_ge_cases k (6 * rb - 64)) as [K|K].
    + rewrite app_nth1 by (rewrite repeat_length; exact K). rewrite nth_repeat. replace (_ <=? k) with false by (symmetry; apply Nat.leb_gt; lia). reflexivity.
    + rewrite app_nth2, repeat_length by (rewrite repeat_length; lia). replace (_ <=? k) with true by (symmetry; apply Nat.leb_le; lia). cbn [andb].
      destruct (Nat.lt_ge_cases (k - (6 * rb - 64)) 127) as [K2|K2].
      * rewrite app_nth1 by (rewrite repeat_length; exact K2). rewrite (nth_indep _ false true), nth_repeat by (rewrite repeat_length; exact K2).
        replace (k <? _) with true by (symmetry; apply Nat.ltb_lt; lia). reflexivity.
      * rewrite app_nth2, repeat_length by (rewrite repeat_length; lia). rewrite nth_repeat. replace (k <? _) with false by (symmetry; apply Nat.ltb_ge; lia). reflexivity.
  - rewrite <- !repeat_app. f_equal. lia.
Qed.
Print Assumptions C117_sync_mask.
(** With fewer blocks the waveform is built but no frame can be placed *)
Theorem C117_few_blocks_refuted : forall A (zero : A) rb refs mu, 1 <= rb <= 10 -> 127 <= length refs -> (0 <= mu)%Z ->
  construct mu (Z.of_nat rb) = Ok tt /\ place_sync_word zero rb refs = Raise ValueError.
Proof.
  intros A zero rb refs mu Hb Hr Hmu. split.
  - unfold construct. replace (Z.of_nat rb <? 1)%Z with false by (symmetry; apply Z.ltb_ge; lia). replace (mu <? 0)%Z with false by (symmetry; apply Z.ltb_ge; lia). reflexivity.
  - unfold place_sync_word. cbv zeta. unfold masked_assign.
    replace (Z.to_nat (z_count REFERENCE 1 (sync_elements (Z.of_nat (rb * rb_subcarriers))))) with 127 by reflexivity.
    assert (L : length (firstn 127 refs) = 127) by (rewrite firstn_length; lia). rewrite L.
    replace (127 =? count_sel (z_mask REFERENCE 1 (sync_elements (Z.of_nat (rb * rb_subcarriers))))) with false.
    + destruct (firstn 127 refs) as [|? [|? ?]]; [reflexivity|discriminate|reflexivity].
    + symmetry. do 11 (destruct rb as [|rb]; [try lia; vm_compute; reflexivity|]). lia.
Qed.
Print Assumptions C117_few_blocks_refuted.

(** Every subframe (of a frame) and every slot has synchronization sequences in its first and third word and data everywhere else *)
Theorem C117_layout : forall A (pilots : list A) repeated rand k rb, 11 <= rb ->
  resource_mask (built k rb pilots repeated rand) = Ok (concat (repeat (words_of rb (part_words k)) (parts k))).
Proof.
  intros A pilots repeated rand k rb H. unfold resource_mask.
  assert (K : forall words, 14 * 2 ^ words = 2 ^ words * symbols_per_slot) by (intros; unfold symbols_per_slot; lia).
  destruct k as [|mu|mu]; cbn [built part_words parts]; unfold slot_wave, subframe_wave, frame_wave; rewrite ?K.
  - rewrite (masks_plain rb pilots repeated rand H) by apply plain_structure. cbn [w_struct waveform]. rewrite words_structure. cbn [repeat concat]. rewrite app_nil_r. reflexivity.
  - rewrite (masks_plain rb pilots repeated rand H) by apply plain_structure. cbn [w_struct waveform]. rewrite words_structure. cbn [repeat concat]. rewrite app_nil_r. reflexivity.
  - rewrite (masks_plain rb pilots repeated rand H) by (apply Forall_concat_repeat; apply plain_structure). cbn [w_struct waveform]. apply f_equal.
    change subframes_per_frame with 10. generalize 10 as n. induction n as [|n IH]; [reflexivity|]. cbn [repeat concat]. rewrite flat_map_app, words_structure, IH. reflexivity.
Qed.
Print Assumptions C117_layout.
Theorem C117_counts : forall A (pilots : list A) repeated rand k rb, 11 <= rb -> let w := built k rb pilots repeated rand in
  words_per_frame w = parts k * part_words k /\ num_data_symbols w = parts k * ((part_words k - 2) * (9 * rb)) /\
  references_per_frame w = parts k * (2 * 127 + (part_words k - 2) * (3 * rb)) /\
  forall os, samples_per_frame w os = parts k * (part_words k * (12 * rb * os + 7 * (12 * rb * os) / 100)).
Proof.
  intros A pilots repeated rand k rb H w. unfold words_per_frame, num_data_symbols, references_per_frame, samples_per_frame.
  assert (P2 : forall mu, 1 <= 2 ^ mu) by (intros mu; pose proof (Nat.pow_nonzero 2 mu ltac:(lia)); lia).
  assert (K : forall mu, 2 ^ mu * symbols_per_slot = 14 * 2 ^ mu) by (intros; unfold symbols_per_slot; lia).
  assert (S : forall os, (rb * 12 * os + rb * 12 * os * 7 / 100) = (12 * rb * os + 7 * (12 * rb * os) / 100)).
  { intros os. replace (rb * 12 * os * 7) with (7 * (12 * rb * os)) by lia. lia. }
  destruct k as [|mu|mu]; subst w; cbn [built part_words parts]; unfold slot_wave, subframe_wave, frame_wave;
    change (w_pilot (waveform rb ?s pilots repeated rand)) with (@None (option (list A)));
    change (w_struct (waveform rb ?s pilots repeated rand)) with s.
  - change symbols_per_slot with 14. destruct (struct_counts rb pilots repeated rand H 14 (structure 14) ltac:(lia)) as [C1 [C2 C3]]. rewrite C1, C2, C3. repeat split; try lia.
    intros os. rewrite (struct_samples rb pilots repeated rand H 14 (structure 14) os) by lia. rewrite S. lia.
  - rewrite K. specialize (P2 mu). destruct (struct_counts rb pilots repeated rand H (14 * 2 ^ mu) (structure (14 * 2 ^ mu)) ltac:(lia)) as [C1 [C2 C3]]. rewrite C1, C2, C3. repeat split; try lia.
    intros os. rewrite (struct_samples rb pilots repeated rand H) by lia. rewrite S. lia.
  - rewrite !sum_repeat, K. change subframes_per_frame with 10. specialize (P2 mu).
    set (s := concat (repeat (structure (14 * 2 ^ mu)) 10)). destruct (struct_counts rb pilots repeated rand H (14 * 2 ^ mu) s ltac:(lia)) as [C1 [C2 C3]]. rewrite C1, C2, C3. repeat split.
    intros os. unfold s at 2. rewrite sum_repeat, (struct_samples rb pilots repeated rand H) by lia. rewrite S. lia.
Qed.
Print Assumptions C117_counts.
Example C117_counts_met : num_data_symbols (built (Frame 1) 24 [0] true (fun n => repeat 0 n)) = 10 * (26 * 216) /\ samples_per_frame (built Slot 24 [0] true (fun n => repeat 0 n)) 1 = 14 * 308.
Proof. split; [|vm_compute; reflexivity]. destruct (C117_counts nat [0] true (fun n => repeat 0 n) (Frame 1) 24 ltac:(lia)) as [_ [-> _]]. reflexivity. Qed.
(** Frames accept and return exactly that many symbols *)
Theorem C117_symbols : forall A (zero : A) pilots rand k rb data, 11 <= rb -> pilots <> [] -> (forall n, length (rand n) = n) ->
  let w := built k rb pilots true rand in
  length data = num_data_symbols w -> exists grid, place zero w data = Ok grid /\ pick w grid = Ok data.
Proof.
  intros A zero pilots rand k rb data H Hp Hr w Hd.
  assert (Hpl : List.Forall plain (w_struct w)).
  { destruct k as [|mu|mu]; subst w; cbn [built w_struct slot_wave subframe_wave frame_wave waveform]; try apply plain_structure. apply Forall_concat_repeat. apply plain_structure. }
  assert (Ew : w = waveform rb (w_struct w) pilots true rand) by (destruct k; reflexivity).
  assert (Hpi : pilots_ok w) by (rewrite Ew; apply plain_pilots; assumption).
  assert (Ho : is_ok (place zero w data)).
  { apply place_ok; [exact Hpi|]. split; [exact Hd|]. split; [rewrite Ew; apply plain_fits; assumption|]. split; [rewrite Ew; exact Hp|left; rewrite Ew; reflexivity]. }
  destruct (place zero w data) as [grid|] eqn:E; [|destruct Ho as [? Ho]; discriminate Ho]. exists grid. split; [reflexivity|].
  apply (place_inv zero w data grid Hpi) in E. destruct E as [_ [? [? E]]]. apply E.
Qed.
Print Assumptions C117_symbols.
Example C117_symbols_met : num_data_symbols (built Slot 11 [5] true (fun n => repeat 0 n)) = length (repeat 1 1188).
Proof. vm_compute. reflexivity. Qed.

(** The word of the primary sequence holds the first 127 symbols of the repeated pilot sequence of the waveform … *)
Theorem C117_first_word : forall A (zero : A) pilots rand k rb data grid, 11 <= rb -> place zero (built k rb pilots true rand) data = Ok grid ->
  nth 0 grid [] = repeat zero (6 * rb - 64) ++ cycled zero 127 pilots ++ repeat zero (6 * rb - 63).
Proof.
  intros A zero pilots rand k rb data grid H Hg.
  assert (Es : exists t, built k rb pilots true rand = waveform rb (SymSec 1 [0] 0 :: t) pilots true rand) by (destruct k; eexists; reflexivity).
  destruct Es as [t Es]. rewrite Es in Hg. destruct (first_word rb pilots true rand H zero _ t data grid eq_refl Hg) as [refs [rest [Er [-> Hl]]]]. cbn [nth]. do 2 f_equal.
  destruct (pilot_symbols_spec _ _ _ Er) as [Hlen Hn]. cbn [w_seq waveform] in Hn. change (w_seq (waveform rb (SymSec 1 [0] 0 :: t) pilots true rand)) with pilots in Hn.
  apply nth_ext with zero zero; [unfold cycled; rewrite firstn_length, map_length, seq_length; lia|].
  intros n Hlt. rewrite firstn_length, Nat.min_l in Hlt by exact Hl. unfold cycled.
  rewrite nth_tabulated by exact Hlt.
  specialize (Hn n ltac:(lia)). assert (F : nth n (firstn 127 refs) zero = nth n refs zero).
  { rewrite <- (firstn_skipn 127 refs) at 2. rewrite app_nth1; [reflexivity|]. rewrite firstn_length. lia. }
  rewrite F. apply nth_error_nth. rewrite Hn.
  apply nth_error_nth'. apply Nat.mod_upper_bound. intros E. apply length_zero_iff_nil in E. rewrite E in Hn.
  assert (E3 : forall i, nth_error (@nil A) i = None) by (intros [|i]; reflexivity). rewrite E3 in Hn. apply nth_error_None in Hn. lia.
Qed.
Print Assumptions C117_first_word.
(** … which is not the primary sequence for any sequence of distinct pilot symbols, among them the default, the constellation *)
Theorem C117_pss_transmitted_refuted : forall A (zero : A) (f : Z -> A) pilots rand k rb data grid, 11 <= rb -> pilots <> [] -> NoDup pilots -> f 1%Z <> f (-1)%Z ->
  place zero (built k rb pilots true rand) data = Ok grid ->
  nth 0 grid [] <> repeat zero (6 * rb - 64) ++ map f pss ++ repeat zero (6 * rb - 63).
Proof.
  intros A zero f pilots rand k rb data grid H Hne Hnd Hf Hg. rewrite (C117_first_word A zero pilots rand k rb data grid H Hg). intros E.
  apply app_inv_head in E. apply app_inv_tail in E.
  assert (N : forall n, n < 127 -> nth (n mod length pilots) pilots zero = f (nth n pss 0%Z)).
  { intros n Hn. assert (E2 : nth n (cycled zero 127 pilots) zero = nth n (map f pss) zero) by (rewrite E; reflexivity). unfold cycled in E2.
    rewrite nth_tabulated in E2 by exact Hn. rewrite E2. rewrite (nth_indep _ zero (f 0%Z)) by (rewrite map_length, pss_length; exact Hn). apply map_nth. }
  assert (P0 := N 0 ltac:(lia)). assert (P1 := N 1 ltac:(lia)). assert (P3 := N 3 ltac:(lia)).
  replace (nth 0 pss 0%Z) with (-1)%Z in P0 by (vm_compute; reflexivity). replace (nth 1 pss 0%Z) with (-1)%Z in P1 by (vm_compute; reflexivity). replace (nth 3 pss 0%Z) with 1%Z in P3 by (vm_compute; reflexivity).
  destruct pilots as [|a [|b l]]; [congruence| |].
  - replace (3 mod length [a]) with 0 in P3 by reflexivity. replace (0 mod length [a]) with 0 in P0 by reflexivity. congruence.
  - rewrite Nat.mod_small in P0 by (cbn [length]; lia). rewrite Nat.mod_small in P1 by (cbn [length]; lia). cbn [nth] in P0, P1. inversion Hnd as [|? ? Hin _]. apply Hin. left. congruence.
Qed.
Print Assumptions C117_pss_transmitted_refuted.
Example C117_pss_transmitted_met : NoDup [1; 2] /\ Z.to_nat 1 <> Z.to_nat (-1) /\ exists grid, place 0 (built Slot 11 [1; 2] true (fun n => repeat 0 n)) (repeat 5 1188) = Ok grid.
Proof.
  split; [repeat constructor; cbn; intuition discriminate|]. split; [discriminate|].
  destruct (C117_symbols nat 0 [1; 2] (fun n => repeat 0 n) Slot 11 (repeat 5 1188) ltac:(lia) ltac:(discriminate) (fun n => repeat_length 0 n) eq_refl) as [grid [Hg _]]. exists grid. exact Hg.
Qed.

(** A subframe of higher numerology is not made of slots: it has synchronization sequences only once *)
Theorem C117_slots : forall A (pilots : list A) repeated rand rb, built (Subframe 0) rb pilots repeated rand = built Slot rb pilots repeated rand.
Proof. reflexivity. Qed.
Print Assumptions C117_slots.
Theorem C117_slots_refuted : forall A (pilots : list A) repeated rand rb mu, 11 <= rb -> 1 <= mu ->
  num_data_symbols (built (Subframe mu) rb pilots repeated rand) > 2 ^ mu * num_data_symbols (built Slot rb pilots repeated rand).
Proof.
  intros A pilots repeated rand rb mu H Hmu. destruct (C117_counts A pilots repeated rand (Subframe mu) rb H) as [_ [-> _]]. destruct (C117_counts A pilots repeated rand Slot rb H) as [_ [-> _]].
  cbn [parts part_words]. assert (2 <= 2 ^ mu) by (destruct mu as [|mu]; [lia|]; cbn [Nat.pow]; pose proof (Nat.pow_nonzero 2 mu ltac:(lia)); lia). nia.
Qed.
Print Assumptions C117_slots_refuted.

(** At its bandwidth a subframe takes the same time for every numerology, which is always less than a millisecond; a frame takes ten times as long *)
Theorem C117_duration_refuted : forall A (pilots : list A) repeated rand rb mu, 11 <= rb -> mu <= 6 -> exists b, bandwidth (Z.of_nat mu) (Z.of_nat rb) = Ok b /\
  let d := duration (built (Subframe mu) rb pilots repeated rand) (inject_Z b) in
  (d == (14 # 15000) * (1 + inject_Z (Z.of_nat (7 * (12 * rb) / 100)) / inject_Z (Z.of_nat (12 * rb))))%Q /\ (14 # 15000 <= d)%Q /\ (d < 1 # 1000)%Q /\
  (duration (built (Frame mu) rb pilots repeated rand) (inject_Z b) == 10 * d)%Q.
Proof.
  intros A pilots repeated rand rb mu H Hmu. destruct (C117_spacing (Z.of_nat mu) (Z.of_nat rb)) as [Hs _]. destruct (Hs ltac:(lia)) as [_ Hb]. clear Hs. eexists. split; [exact Hb|]. cbv zeta.
  unfold duration. destruct (C117_counts A pilots repeated rand (Subframe mu) rb H) as [_ [_ [_ S1]]]. destruct (C117_counts A pilots repeated rand (Frame mu) rb H) as [_ [_ [_ S2]]].
  rewrite S1, S2. cbn [parts part_words]. clear S1 S2 Hb. rewrite !Nat.mul_1_r. set (q := 7 * (12 * rb) / 100).
  assert (Hq : 100 * q <= 7 * (12 * rb)) by (apply Nat.mul_div_le; lia).
  rewrite !Nat2Z.inj_mul, !Nat2Z.inj_add, !Nat2Z.inj_mul, !inject_Z_mult, !inject_Z_plus, !inject_Z_mult.
  assert (P : ~ (inject_Z (2 ^ Z.of_nat mu) == 0)%Q). { intros E. unfold Qeq in E. cbn in E. assert (0 < 2 ^ Z.of_nat mu)%Z by (apply Z.pow_pos_nonneg; lia). lia. }
  assert (EP : Z.of_nat (2 ^ mu) = (2 ^ Z.of_nat mu)%Z) by (rewrite Nat2Z.inj_pow; reflexivity). rewrite EP.
  assert (R : (0 < inject_Z (Z.of_nat rb))%Q) by (unfold Qlt; cbn; lia). assert (R' : ~ (inject_Z (Z.of_nat rb) == 0)%Q) by (intros E; rewrite E in R; apply (Qlt_irrefl 0); exact R).
  change (inject_Z (Z.of_nat 12)) with 12%Q. change (inject_Z 12) with 12%Q. change (inject_Z (Z.of_nat 14)) with 14%Q. change (inject_Z (Z.of_nat 10)) with 10%Q. change (inject_Z (Z.of_nat 1)) with 1%Q.
  change (inject_Z 15000) with 15000%Q. remember (inject_Z (2 ^ Z.of_nat mu)) as p. remember (inject_Z (Z.of_nat rb)) as r. remember (inject_Z (Z.of_nat q)) as k.
  assert (K0 : (0 <= k)%Q) by (subst k; unfold Qle; cbn; lia). assert (K1 : (100 * k <= 84 * r)%Q). { subst k r. change 100%Q with (inject_Z 100). change 84%Q with (inject_Z 84). rewrite <- !inject_Z_mult, <- Zle_Qle. lia. }
  assert (E1 : (1 * (14 * p * (12 * r + k)) / (12 * r * (15000 * p)) == (14 # 15000) * (1 + k / (12 * r)))%Q).
  { change (14 # 15000)%Q with (14 / 15000)%Q. field. split; assumption. }
  assert (B0 : (0 <= k / (12 * r))%Q) by (apply Qle_shift_div_l; lra). assert (B1 : (k / (12 * r) <= 7 # 100)%Q) by (apply Qle_shift_div_r; lra).
  split; [exact E1|]. rewrite E1. split; [lra|]. split; [lra|]. change (14 # 15000)%Q with (14 / 15000)%Q. field. split; assumption.
Qed.
Print Assumptions C117_duration_refuted.
Example C117_duration_met : (duration (built (Subframe 0) 24 [0] true (fun n => repeat 0 n)) (15000 * 288) == 4312 # 4320000)%Q.
Proof. vm_compute. reflexivity. Qed.

(** ** Serialization *)
Theorem C117_reload : forall mu rb, reload (fresh mu rb) = fresh mu rb.
Proof. intros mu rb. unfold reload, fresh, rb_subcarriers. cbn [c_numerology c_blocks]. rewrite Nat.div_mul by lia. reflexivity. Qed.
Print Assumptions C117_reload.
(** Modulation order, synchronization, estimation and equalization are not stored *)
Theorem C117_reload_refuted : forall c, c_numerology (reload c) = c_numerology c /\ c_blocks (reload c) = c_blocks c /\
  (reload c = c <-> c_order c = 16 /\ c_synchronization c = 0 /\ c_estimation c = 0 /\ c_equalization c = 0).
Proof.
  intros [mu rb o s e q]. unfold reload, fresh, rb_subcarriers. cbn [c_numerology c_blocks c_order c_synchronization c_estimation c_equalization]. rewrite Nat.div_mul by lia.
  split; [reflexivity|]. split; [reflexivity|]. split; [intros E; injection E as <- <- <- <-; auto|intros [-> [-> [-> ->]]]; reflexivity].
Qed.
Print Assumptions C117_reload_refuted.
(** Links lose a selection of the first port and cannot be restored with several selected ports *)
Theorem C117_reload_link : forall rb, reload_link (fresh_link rb) None None = Ok (fresh_link rb, None, None).
Proof. intros rb. unfold reload_link, fresh_link, rb_subcarriers. cbn [reload_ports bind c_blocks]. rewrite Nat.div_mul by lia. reflexivity. Qed.
Print Assumptions C117_reload_link.
Theorem C117_reload_ports_refuted : forall c rx, (forall p q l, reload_link c (Some (p :: q :: l)) rx = Raise ValueError) /\
  (forall c' t r, reload_link c (Some [0]) rx = Ok (c', t, r) -> t = None).
Proof.
  intros c rx. split; [reflexivity|]. intros c' t r H. unfold reload_link in H. cbn [reload_ports Nat.eqb bind] in H. destruct (reload_ports rx); [|discriminate]. cbn [bind] in H. congruence.
Qed.
Print Assumptions C117_reload_ports_refuted.
