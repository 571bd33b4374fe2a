(** Proofs for 5G NR waveforms. *)
From Coq Require Import List Arith Bool ZArith QArith Lia Lqa.
From Verif Require Import Base BaseLemmas Grid_Model Grid_Spec Grid_Proofs Nr_Model Nr_Spec.
Import ListNotations.
Local Open Scope nat_scope.

(** ** Sequences *)
Lemma extend_length a : forall n x, length (extend a x n) = length x + n.
Proof. induction n as [|n IH]; intros x; cbn [extend]; [lia|]. rewrite IH, app_length. cbn [length]. lia. Qed.
Lemma extend_prefix a : forall n x k d, k < length x -> nth k (extend a x n) d = nth k x d.
Proof. induction n as [|n IH]; intros x k d Hk; cbn [extend]; [reflexivity|]. rewrite IH by (rewrite app_length; lia). apply app_nth1. exact Hk. Qed.
(** a function that satisfies the recurrence is what [extend] computes *)
Lemma extend_function (f : nat -> nat) : (forall i, f (i + 7) = (f (i + 4) + f i) mod 2) ->
  forall n x, 7 <= length x -> (forall k, k < length x -> nth k x 0 = f k) -> forall k, k < length x + n -> nth k (extend 3 x n) 0 = f k.
Proof.
  intros Hf. induction n as [|n IH]; intros x H7 Hx k Hk; cbn [extend]; [apply Hx; lia|]. apply IH; [rewrite app_length; lia| |rewrite app_length; cbn [length]; lia].
  intros j Hj. rewrite app_length in Hj. cbn [length] in Hj. destruct (Nat.lt_ge_cases j (length x)) as [Hl|Hl]; [rewrite app_nth1 by exact Hl; apply Hx; exact Hl|].
  assert (j = length x) as -> by lia. rewrite app_nth2, Nat.sub_diag by lia. cbn [nth]. rewrite !Hx by lia.
  replace (length x - 3) with (length x - 7 + 4) by lia. rewrite <- Hf. f_equal. lia.
Qed.
Definition standard_table : list nat := extend 3 [0; 1; 1; 0; 1; 1; 1] 120.
Lemma standard_is_table x : standard_bits x -> forall k, k < 127 -> x k = nth k standard_table 0.
Proof.
  intros [Hr Hs] k Hk. symmetry. apply (extend_function x Hr 120); [cbn [length]; lia| |exact Hk]. injection Hs as H6 H5 H4 H3 H2 H1 H0. cbn [length].
  intros j Hj. do 7 (destruct j as [|j]; [cbn [nth]; symmetry; assumption|]). lia.
Qed.
Lemma check_all (P : nat -> bool) n : forallb P (seq 0 n) = true -> forall k, k < n -> P k = true.
Proof. intros H k Hk. rewrite forallb_forall in H. apply H. apply in_seq. lia. Qed.
Lemma pss_length : length pss = 127.
Proof. reflexivity. Qed.
Lemma correlation_periodic s k : s <> [] -> correlation s k = correlation s (k mod length s).
Proof.
  intros Hs. unfold correlation. f_equal. apply map_ext. intros n. do 2 f_equal. assert (length s <> 0) by (destruct s; [congruence|discriminate]).
  rewrite Nat.add_mod_idemp_r by assumption. reflexivity.
Qed.

Lemma nth_tabulated {T} (f : nat -> T) d len n : n < len -> nth n (map f (seq 0 len)) d = f n.
Proof. intros H. rewrite (nth_indep _ d (f 0)) by (rewrite map_length, seq_length; exact H). rewrite map_nth, seq_nth by exact H. reflexivity. Qed.

(** ** Words *)
Lemma sync_mask rb : 11 <= rb -> map Some (res_mask (as_resource 1 (sync_elements (Z.of_nat (rb * rb_subcarriers))))) = sync_word rb.
Proof.
  intros H. unfold as_resource, res_mask, sync_word, rb_subcarriers, sync_elements. cbn [r_elems r_reps map repeat concat e_type e_reps fst snd]. rewrite !app_nil_r, !map_app, !map_repeat'.
  replace (Z.to_nat (Z.of_nat (rb * 12) / 2 - 64)) with (6 * rb - 64).
  2:{ replace (Z.of_nat (rb * 12)) with (Z.of_nat (6 * rb) * 2)%Z by lia. rewrite Z.div_mul by lia. lia. }
  replace (Z.to_nat (Z.of_nat (rb * 12) / 2 - 63)) with (6 * rb - 63).
  2:{ replace (Z.of_nat (rb * 12)) with (Z.of_nat (6 * rb) * 2)%Z by lia. rewrite Z.div_mul by lia. lia. }
  reflexivity.
Qed.
Lemma concat_repeat_mul {T} (l : list T) a b : concat (repeat l (a * b)) = concat (repeat (concat (repeat l a)) b).
Proof.
  rewrite Nat.mul_comm. induction b as [|b IH]; [reflexivity|]. cbn [Nat.mul repeat concat]. rewrite repeat_app, concat_app, IH. reflexivity.
Qed.
Lemma data_mask rb : map Some (res_mask (as_resource rb pbch_elements)) = data_word rb.
Proof.
  unfold as_resource, res_mask, data_word, pbch_elements. cbn [r_elems r_reps map repeat concat e_type e_reps fst snd]. rewrite concat_repeat_mul, concat_repeat_map. reflexivity.
Qed.
Lemma length_sync rb : 11 <= rb -> length (sync_word rb) = rb * rb_subcarriers.
Proof. intros H. unfold sync_word, rb_subcarriers. rewrite !app_length, !repeat_length. lia. Qed.
Lemma length_data rb : length (data_word rb) = rb * rb_subcarriers.
Proof. unfold data_word, rb_subcarriers. rewrite length_concat_repeat. cbn [length]. lia. Qed.

Lemma sum_repeat {T} (f : T -> nat) (l : list T) n : sum (map f (concat (repeat l n))) = n * sum (map f l).
Proof. induction n as [|n IH]; [reflexivity|]. cbn [repeat concat Nat.mul]. rewrite map_app, sum_app, IH. lia. Qed.

Section W.
Context {A : Type}.
Variables (rb : nat) (pilots : list A) (repeated : bool) (rand : nat -> list A).
Hypothesis Hrb : 11 <= rb.
Notation wave_of s := (waveform rb s pilots repeated rand).

Lemma res_sub s i : i <= 2 -> res_subcarriers (res_at (wave_of s) i) = rb * rb_subcarriers.
Proof.
  intros Hi. rewrite <- length_res_mask. unfold res_at, waveform, resources. cbn [w_res].
  destruct i as [|[|[|i]]]; cbn [nth]; try lia.
  - rewrite <- (map_length (@Some etype)), (sync_mask rb Hrb). apply length_sync. exact Hrb.
  - rewrite <- (map_length (@Some etype)), (sync_mask rb Hrb). apply length_sync. exact Hrb.
  - rewrite <- (map_length (@Some etype)), (data_mask rb). apply length_data.
Qed.
Lemma res_word s i : i <= 2 -> map Some (res_mask (res_at (wave_of s) i)) = if i =? 2 then data_word rb else sync_word rb.
Proof.
  intros Hi. unfold res_at, waveform, resources. cbn [w_res].
  destruct i as [|[|[|i]]]; cbn [nth Nat.eqb]; try lia; [apply sync_mask; exact Hrb|apply sync_mask; exact Hrb|apply data_mask].
Qed.
Lemma sec_width s reps i : i <= 2 -> sec_subcarriers (wave_of s) (SymSec reps [i] 0) = rb * rb_subcarriers.
Proof. intros Hi. cbn [sec_subcarriers map list_max0 fold_right]. rewrite (res_sub s i Hi). lia. Qed.
Lemma sec_words_of s reps i : i <= 2 -> sec_mask (wave_of s) (SymSec reps [i] 0) = repeat (if i =? 2 then data_word rb else sync_word rb) reps.
Proof.
  intros Hi. cbn [sec_mask map]. change (list_max0 (map (fun i0 => res_subcarriers (res_at (wave_of s) i0)) [i])) with (sec_subcarriers (wave_of s) (SymSec reps [i] 0)).
  rewrite (sec_width s reps i Hi), (res_sub s i Hi), Nat.sub_diag, (res_word s i Hi). cbn [repeat]. rewrite app_nil_r.
  induction reps as [|r IH]; [reflexivity|]. cbn [repeat concat app]. rewrite IH. reflexivity.
Qed.
(** all sections are single-word patterns of one of the three resources *)
Definition plain (x : @section A) : Prop := match x with SymSec _ [i] 0 => i <= 2 | _ => False end.
Definition words_in (x : @section A) : list (list (option etype)) :=
  match x with SymSec reps [i] _ => repeat (if i =? 2 then data_word rb else sync_word rb) reps | _ => [] end.
Lemma masks_plain s : forall l, List.Forall plain l -> masks (wave_of s) l = Ok (flat_map words_in l).
Proof.
  induction l as [|x l IH]; intros H; [reflexivity|]. inversion H as [|? ? Hx Hl]; subst. cbn [masks flat_map].
  destruct x as [reps [|i [|? ?]] [|off]| |]; cbn [plain] in Hx; try contradiction.
  rewrite (sec_width s reps i Hx), (sec_words_of s reps i Hx). change (w_sub (wave_of s)) with (rb * rb_subcarriers). rewrite Nat.ltb_irrefl, (IH Hl). cbn [bind]. rewrite Nat.sub_diag.
  cbn [repeat words_in]. f_equal. f_equal. rewrite <- (map_id (repeat _ reps)) at 2. apply map_ext. intros r. apply app_nil_r.
Qed.
Lemma plain_structure words : List.Forall plain (structure words).
Proof. unfold structure. repeat constructor; cbn [plain]; lia. Qed.
Lemma words_structure words : flat_map words_in (structure words) = words_of rb words.
Proof. unfold structure, words_of. cbn [flat_map words_in Nat.eqb repeat app]. rewrite app_nil_r. reflexivity. Qed.
Lemma plain_fits s : List.Forall plain s -> fits (wave_of s).
Proof.
  intros H. unfold fits. change (w_struct (wave_of s)) with s. eapply Forall_impl; [|exact H]. intros x Hx.
  destruct x as [reps [|i [|? ?]] [|off]| |]; cbn [plain] in Hx; try contradiction. rewrite (sec_width s reps i Hx). unfold waveform. cbn [w_sub]. lia.
Qed.
Lemma plain_pilots s : List.Forall plain s -> (forall n, length (rand n) = n) -> pilots_ok (wave_of s).
Proof.
  intros H Hr. split; [exact Hr|]. change (w_struct (wave_of s)) with s. eapply Forall_impl; [|exact H]. intros [? ? ?|?|[[|? ?]|]] Hx; try exact I. contradiction.
Qed.
Lemma counts i : i <= 2 -> forall s, res_count DATA (res_at (wave_of s) i) = (if i =? 2 then 9 * rb else 0) /\
  res_count REFERENCE (res_at (wave_of s) i) = (if i =? 2 then 3 * rb else 127).
Proof.
  intros Hi s. unfold res_at, waveform, resources, res_count, as_resource, sync_elements, pbch_elements. cbn [w_res].
  destruct i as [|[|[|i]]]; [| | |lia]; cbn [nth r_reps r_elems map fst snd e_type e_reps etype_eqb sum Nat.eqb]; split; try reflexivity; try lia.
Qed.
Lemma struct_counts words s : 3 <= words ->
  sum (map (sec_symbols (wave_of s)) (structure words)) = (words - 2) * (9 * rb) /\
  sum (map (sec_references (wave_of s)) (structure words)) = 2 * 127 + (words - 2) * (3 * rb) /\ sum (map sec_words (@structure A words)) = words.
Proof.
  intros Hw. pose proof (counts 0 ltac:(lia) s) as [D0 R0]. pose proof (counts 1 ltac:(lia) s) as [D1 R1]. pose proof (counts 2 ltac:(lia) s) as [D2 R2]. cbn [Nat.eqb] in *.
  unfold structure. cbn [map sum sec_symbols sec_references sec_words length]. rewrite D0, D1, D2, R0, R1, R2. replace words with (words - 3 + 3) by lia. remember (words - 3) as k. nia.
Qed.
Lemma struct_samples words s os : 3 <= words ->
  sum (map (sec_samples (wave_of s) os) (structure words)) = words * (rb * 12 * os + rb * 12 * os * 7 / 100).
Proof.
  intros Hw. assert (P : forall i, i <= 2 -> prefix_samples (wave_of s) os (res_at (wave_of s) i) = rb * 12 * os * 7 / 100).
  { intros i Hi. unfold res_at, waveform, resources, prefix_samples, slot. cbn [w_res w_sub]. destruct i as [|[|[|i]]]; [reflexivity|reflexivity|reflexivity|lia]. }
  unfold structure. cbn [map sum sec_samples length]. rewrite !P by lia. unfold slot. change (w_sub (wave_of s)) with (rb * 12). remember (rb * 12 * os * 7 / 100) as p. remember (rb * 12 * os) as q.
  replace words with (words - 3 + 3) by lia. remember (words - 3) as k. nia.
Qed.

(** the first word *)
Lemma scatter_false : forall n (v base : list A), scatter (repeat false n) v base = base.
Proof. induction n as [|n IH]; intros v [|b base]; try reflexivity. cbn [repeat scatter]. rewrite IH. reflexivity. Qed.
Lemma scatter_app : forall (s1 : list bool) s2 (v b1 b2 : list A), length s1 = length b1 ->
  scatter (s1 ++ s2) v (b1 ++ b2) = scatter s1 (firstn (count_sel s1) v) b1 ++ scatter s2 (skipn (count_sel s1) v) b2.
Proof.
  induction s1 as [|x s1 IH]; intros s2 v [|b b1] b2 Hl; try discriminate Hl; [reflexivity|]. injection Hl as Hl. rewrite count_sel_cons. destruct x; cbn [app scatter Nat.add].
  - destruct v as [|y v]; [rewrite IH by exact Hl; rewrite !firstn_nil, !skipn_nil; reflexivity|]. cbn [firstn skipn]. rewrite IH by exact Hl. reflexivity.
  - rewrite IH by exact Hl. reflexivity.
Qed.
Lemma scatter_true : forall n (v base : list A), length v = n -> length base = n -> scatter (repeat true n) v base = v.
Proof.
  induction n as [|n IH]; intros [|x v] [|b base] Hv Hb; try discriminate; [reflexivity|]. cbn [repeat scatter]. injection Hv as Hv. injection Hb as Hb. rewrite IH by assumption. reflexivity.
Qed.
Lemma first_word zero s t data grid : s = SymSec 1 [0] 0 :: t -> place zero (wave_of s) data = Ok grid ->
  exists refs rest, pilot_symbols (wave_of s) (references_per_frame (wave_of s)) = Ok refs /\
  grid = (repeat zero (6 * rb - 64) ++ firstn 127 refs ++ repeat zero (6 * rb - 63)) :: rest /\ 127 <= length refs.
Proof.
  intros Es H. unfold place in H. destruct (pilot_symbols (wave_of s) (references_per_frame (wave_of s))) as [refs|] eqn:Ep; [|discriminate]. cbn [bind] in H.
  destruct (length data =? num_data_symbols (wave_of s)); [|discriminate]. change (w_struct (wave_of s)) with s in H. rewrite Es in H at 2. cbn [place_sections] in H.
  pose proof (counts 0 ltac:(lia) s) as [D0 R0]. cbn [Nat.eqb] in D0, R0.
  assert (Hs : sec_symbols (wave_of s) (SymSec 1 [0] 0) = 0) by (cbn [sec_symbols map sum]; rewrite D0; reflexivity).
  assert (Hr : sec_references (wave_of s) (SymSec 1 [0] 0) = 127) by (cbn [sec_references map sum]; rewrite R0; reflexivity).
  rewrite Hs, Hr in H. unfold place_symbols in H. rewrite (sec_words_of s 1 0) in H by lia. rewrite (sec_width s 1 0) in H by lia. cbn [Nat.eqb repeat sec_words length] in H.
  assert (Hl : 127 <= length refs).
  { destruct (pilot_symbols_spec (wave_of s) _ _ Ep) as [-> _]. unfold references_per_frame. change (w_struct (wave_of s)) with s. rewrite Es at 2. cbn [map sum]. rewrite Hr. lia. }
  assert (S1 : sel_of REFERENCE [sync_word rb] = repeat false (6 * rb - 64) ++ repeat true 127 ++ repeat false (6 * rb - 63)).
  { unfold sel_of, sync_word. cbn [concat]. rewrite app_nil_r, !map_app, !map_repeat'. reflexivity. }
  assert (S2 : sel_of DATA [sync_word rb] = repeat false (rb * rb_subcarriers)).
  { unfold sel_of, sync_word. cbn [concat]. rewrite app_nil_r, !map_app, !map_repeat'. cbn [is_type etype_eqb]. rewrite <- !repeat_app. f_equal. unfold rb_subcarriers. lia. }
  assert (Lr : length (firstn 127 refs) = 127) by (rewrite firstn_length; lia). remember (firstn 127 refs) as r eqn:Er. change (firstn 0 data) with (@nil A) in H.
  rewrite S1, S2 in H. unfold masked_assign in H. rewrite !count_sel_app, !count_sel_repeat, Lr in H. change (0 + (127 + 0)) with 127 in H. rewrite Nat.eqb_refl in H. cbn [bind length Nat.eqb] in H.
  assert (Z1 : repeat zero (1 * 1 * (rb * rb_subcarriers)) = repeat zero (6 * rb - 64) ++ repeat zero 127 ++ repeat zero (6 * rb - 63)).
  { rewrite <- !repeat_app. f_equal. unfold rb_subcarriers. lia. }
  rewrite Z1, scatter_app in H by (rewrite !repeat_length; reflexivity). rewrite count_sel_repeat in H. change (firstn 0 r) with (@nil A) in H. change (skipn 0 r) with r in H. rewrite scatter_false in H.
  rewrite scatter_app in H by (rewrite !repeat_length; reflexivity). rewrite count_sel_repeat in H. rewrite (firstn_all2 (n := 127)) in H by lia.
  rewrite scatter_true in H by (rewrite ?repeat_length; lia). rewrite !scatter_false in H.
  change (w_sub (wave_of s)) with (rb * rb_subcarriers) in H. rewrite Nat.ltb_irrefl in H.
  destruct (place_sections zero (wave_of s) t (skipn 0 data) (skipn 127 refs)) as [rest|]; [|discriminate]. cbn [bind] in H. injection H as H.
  exists refs, rest. split; [reflexivity|]. split; [|exact Hl]. rewrite <- H, Nat.sub_diag, <- Er. cbn [repeat]. unfold blocks_of, slice. change (1 * 1) with 1. cbn [seq map app Nat.mul Nat.add].
  rewrite app_nil_r, Nat.add_0_r, Nat.sub_0_r. change (skipn 0 ?x) with x. rewrite firstn_all2; [reflexivity|]. rewrite !app_length, !repeat_length, Lr. unfold rb_subcarriers. lia.
Qed.
End W.
