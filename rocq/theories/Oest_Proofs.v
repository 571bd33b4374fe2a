(** Lemmas on OFDM frames sent over channels. *)
From Coq Require Import List Reals ZArith Arith Bool Lia Lra.
From Coquelicot Require Import Complex.
From Verif Require Import Base BaseLemmas Cplx Cplx_Proofs Grid_Model Grid_Spec Grid_Proofs GridSamples_Proofs Ofdm_Model Ofdm_Proofs Chan_Model Oest_Model Oest_Spec.
From Verif Require Chan_Spec Chan_Proofs.
Import ListNotations.
Local Open Scope nat_scope.

(** ** Where the words of a frame are *)
Section W.
Context {A : Type} (zero junk : A).
Notation wave := (@wave A).
Notation section := (@section A).
Implicit Types (w : wave) (s : section).

Lemma starts_rs_length w os : forall rs pos, length (starts_rs w os rs pos) = length rs.
Proof. induction rs; intro pos; [reflexivity|]. cbn. f_equal. apply IHrs. Qed.
Lemma starts_sec_length w os s pos : length (starts_sec w os s pos) = sec_words s.
Proof. destruct s; cbn; [|reflexivity..]. rewrite starts_rs_length, length_concat_repeat, map_length. reflexivity. Qed.
Lemma starts_length w os : forall l pos, length (starts w os l pos) = sum (map sec_words l).
Proof. induction l as [|s l IH]; intro pos; [reflexivity|]. cbn [starts map sum]. rewrite app_length, starts_sec_length, IH. reflexivity. Qed.

Lemma starts_rs_bound w os : forall rs pos st, In st (starts_rs w os rs pos) ->
  pos <= st /\ st + slot w os <= pos + sum (map (fun r => slot w os + eff w os r) rs).
Proof.
  induction rs as [|r rs IH]; intros pos st H; [destruct H|]. cbn [starts_rs map sum In] in *. change (prefix_length w os r) with (eff w os r) in *.
  destruct H as [<-|H]; [lia|]. apply IH in H. lia.
Qed.
Lemma starts_sec_bound w os s pos st : In st (starts_sec w os s pos) -> pos <= st /\ st + slot w os <= pos + sec_samples w os s.
Proof.
  destruct s as [reps pat off|n|e]; cbn [starts_sec]; intro H.
  - apply starts_rs_bound in H. pose proof (sum_eff_le w os reps pat) as E. cbn [sec_samples]. lia.
  - destruct H.
  - destruct H as [<-|[]]. cbn [sec_samples]. lia.
Qed.

(** Demodulation takes the samples from these places. *)
Definition window d w os (y : list A) (st : nat) : list A := map (fun q => nth (st + q) y d) (seq 0 (slot w os)).
Lemma window_slice d w os y st : st + slot w os <= length y -> window d w os y st = slice st (st + slot w os) y.
Proof.
  intro H. unfold window, slice. replace (st + slot w os - st) with (slot w os) by lia.
  apply nth_ext with (d := d) (d' := d).
  - rewrite map_length, seq_length, firstn_length, skipn_length. lia.
  - rewrite map_length, seq_length. intros q Hq. rewrite nth_firstn' by exact Hq. rewrite nth_skipn'.
    rewrite (nth_map' (fun q => nth (st + q) y d) (seq 0 (slot w os)) 0) by (rewrite seq_length; exact Hq). rewrite seq_nth by exact Hq. reflexivity.
Qed.
Lemma pick_rs d w os : forall rs idx y, idx + sum (map (fun r => slot w os + eff w os r) rs) <= length y ->
  pick_words w os 0 idx rs y = Ok (map (window d w os y) (starts_rs w os rs idx)).
Proof.
  induction rs as [|r rs IH]; intros idx y H; [reflexivity|]. cbn [pick_words starts_rs map sum] in *. change (prefix_length w os r) with (eff w os r).
  replace (if has_prefix w os r then idx + prefix_samples w os r else idx) with (idx + eff w os r) by (unfold eff; destruct (has_prefix w os r); lia).
  rewrite pyslice_nonneg by lia.
  replace (Z.to_nat _) with (idx + eff w os r) by lia. replace (Z.to_nat _) with (idx + eff w os r + slot w os) by lia.
  rewrite <- (window_slice d) by lia. rewrite assign_exact by (unfold window; rewrite map_length, seq_length; reflexivity). cbn [bind].
  rewrite IH by lia. reflexivity.
Qed.
Lemma pick_sec d w os s y : sec_offset s = 0 -> length y = sec_samples w os s ->
  pick_samples w os s y = Ok (map (window d w os y) (starts_sec w os s 0)).
Proof.
  intros O L. destruct s as [reps pat off|n|e]; cbn [sec_offset] in O; cbn [pick_samples starts_sec].
  - subst off. apply pick_rs. pose proof (sum_eff_le w os reps pat). cbn [sec_samples] in L. lia.
  - reflexivity.
  - cbn [sec_samples] in L. rewrite assign_exact by exact L. cbn [bind map]. f_equal. f_equal. unfold window. cbn [Nat.add].
    rewrite <- L. clear. apply nth_ext with (d := d) (d' := d); [rewrite map_length, seq_length; reflexivity|]. intros q Hq.
    rewrite (nth_map' (fun q => nth q y d) _ 0) by (rewrite seq_length; exact Hq). rewrite seq_nth by exact Hq. reflexivity.
Qed.
Lemma window_shift d w os y k st : window d w os (skipn k y) st = window d w os y (k + st).
Proof. unfold window. apply map_ext. intro q. rewrite nth_skipn'. f_equal. lia. Qed.
Lemma window_first d w os y k st : st + slot w os <= k -> window d w os (firstn k y) st = window d w os y st.
Proof. intro H. unfold window. apply map_ext_in. intros q Hq. apply in_seq in Hq. apply nth_firstn'. lia. Qed.
Lemma starts_rs_shift w os k : forall rs pos, starts_rs w os rs (k + pos) = map (fun st => k + st) (starts_rs w os rs pos).
Proof.
  induction rs as [|r rs IH]; intro pos; [reflexivity|]. cbn [starts_rs map]. rewrite <- IH. f_equal; [lia|]. f_equal. lia.
Qed.
Lemma starts_sec_shift w os k s pos : starts_sec w os s (k + pos) = map (fun st => k + st) (starts_sec w os s pos).
Proof. destruct s; cbn [starts_sec map]; [apply starts_rs_shift|reflexivity|reflexivity]. Qed.
Lemma starts_shift w os k : forall l pos, starts w os l (k + pos) = map (fun st => k + st) (starts w os l pos).
Proof.
  induction l as [|s l IH]; intro pos; [reflexivity|]. cbn [starts]. rewrite map_app, starts_sec_shift, <- IH. f_equal. f_equal. lia.
Qed.
Lemma demodulate_windows d w os : forall l y, Forall (fun s => sec_offset s = 0) l -> sum (map (sec_samples w os) l) <= length y ->
  demodulate_sections w os l y = Ok (map (window d w os y) (starts w os l 0)).
Proof.
  induction l as [|s l IH]; intros y O L; [reflexivity|]. inversion O as [|? ? Os Ol]; subst. cbn [map sum] in L.
  cbn [demodulate_sections starts]. rewrite (pick_sec d) by (try exact Os; rewrite firstn_length; lia). cbn [bind].
  rewrite IH by (try exact Ol; rewrite skipn_length; lia). cbn [bind]. f_equal. rewrite map_app. f_equal.
  - apply map_ext_in. intros st Hst. apply starts_sec_bound in Hst. apply window_first. lia.
  - rewrite (Nat.add_comm 0), starts_shift, map_map. apply map_ext. intro st. apply window_shift.
Qed.

(** What modulation puts there, and before it *)
Definition carries d (y : list A) (p st : nat) (g : list A) : Prop :=
  p <= st /\ (p <= length g) /\ (forall q, q < length g -> nth (st + q) y d = nth q g d) /\
  (forall k, 0 < k -> k <= p -> nth (st - k) y d = nth (length g - k) g d).
Lemma carries_pre d pre y p st g : carries d y p st g -> carries d (pre ++ y) p (length pre + st) g.
Proof.
  intros (H1 & H2 & H3 & H4). repeat split; [lia|exact H2| |].
  - intros q Hq. rewrite app_nth2 by lia. replace (length pre + st + q - length pre) with (st + q) by lia. apply H3, Hq.
  - intros k K1 K2. rewrite app_nth2 by lia. replace (length pre + st - k - length pre) with (st - k) by lia. apply H4; assumption.
Qed.
Lemma carries_post d y post p st g : st + length g <= length y -> carries d y p st g -> carries d (y ++ post) p st g.
Proof.
  intros L (H1 & H2 & H3 & H4). repeat split; [lia|exact H2| |].
  - intros q Hq. rewrite app_nth1 by lia. apply H3, Hq.
  - intros k K1 K2. destruct (Nat.eq_dec (length g) 0) as [E|E].
    + exfalso. lia.
    + rewrite app_nth1 by lia. apply H4; assumption.
Qed.
Lemma word_carries d w os r g y : 0 < slot w os -> length g = slot w os -> (r_ptype r = CYCLIC -> prefix_samples w os r <= slot w os) ->
  place_word zero w os r g = Ok y -> length y = eff w os r + length g /\ carries d y (word_prefix w os r) (eff w os r) g.
Proof.
  intros HN Lg Hp H. unfold place_word in H. unfold eff, word_prefix. destruct (has_prefix w os r) eqn:Eh.
  - destruct (r_ptype r) eqn:Et; [| |discriminate].
    + specialize (Hp eq_refl). rewrite assign_exact in H by (rewrite skipn_length; lia). cbn [bind] in H. injection H as <-.
      assert (L : length (skipn (length g - prefix_samples w os r) g) = prefix_samples w os r) by (rewrite skipn_length; lia).
      split; [rewrite app_length; lia|]. split; [lia|]. split; [lia|]. split.
      * intros q Hq. rewrite app_nth2 by lia. f_equal. lia.
      * intros k K1 K2. rewrite app_nth1 by lia. rewrite nth_skipn'. f_equal. lia.
    + injection H as <-. split; [rewrite app_length, repeat_length; lia|]. split; [lia|]. split; [lia|]. split.
      * intros q Hq. rewrite app_nth2 by (rewrite repeat_length; lia). rewrite repeat_length. f_equal. lia.
      * intros k K1 K2. lia.
  - injection H as <-. split; [reflexivity|].
    assert (E : match r_ptype r with CYCLIC => prefix_samples w os r | _ => 0 end = 0).
    { unfold has_prefix in Eh. destruct (r_ptype r); [|reflexivity..]. cbn [is_none negb] in Eh. rewrite andb_true_r in Eh. apply Nat.ltb_ge in Eh. lia. }
    rewrite E. split; [lia|]. split; [lia|]. split; [reflexivity|]. intros. lia.
Qed.
Lemma rs_carries d w os : 0 < slot w os -> forall rs rows y, length rows = length rs -> Forall (fun x => length x = slot w os) rows ->
  Forall (fun r => r_ptype r = CYCLIC -> prefix_samples w os r <= slot w os) rs -> place_rs zero w os rs rows = Ok y ->
  forall i, i < length rows -> carries d y (nth i (map (word_prefix w os) rs) 0) (nth i (starts_rs w os rs 0) 0) (nth i rows []).
Proof.
  intro HN. induction rs as [|r rs IH]; intros rows y L F R H i Hi; [cbn in L; lia|].
  destruct rows as [|g rows]; [cbn in Hi; lia|]. inversion F as [|? ? Fg Fr]; subst. inversion R as [|? ? Rr Rrs]; subst.
  cbn [place_rs] in H. apply bind_ok in H as (a & Ha & H). apply bind_ok in H as (b & Hb & H). injection H as <-.
  destruct (word_carries d w os r g a HN Fg Rr Ha) as [La Ca]. cbn [length] in L, Hi.
  destruct i as [|i]; cbn [map nth starts_rs]; change (prefix_length w os r) with (eff w os r).
  - rewrite Nat.add_0_l. apply carries_post; [lia|exact Ca].
  - specialize (IH rows b ltac:(lia) Fr Rrs Hb i ltac:(lia)).
    replace (0 + eff w os r + slot w os) with (length a + 0) by lia. rewrite starts_rs_shift.
    rewrite (nth_map' (fun st => length a + st) _ 0) by (rewrite starts_rs_length; lia). apply carries_pre, IH.
Qed.
Lemma section_carries d w os s rows y : 0 < slot w os -> length rows = sec_words s -> Forall (fun x => length x = slot w os) rows ->
  (forall reps pat off i, s = SymSec reps pat off -> In i pat -> r_ptype (res_at w i) = CYCLIC -> prefix_samples w os (res_at w i) <= slot w os) ->
  place_samples zero junk w os s rows = Ok y ->
  forall i, i < length rows -> carries d y (nth i (section_prefixes w os s) 0) (nth i (starts_sec w os s 0) 0) (nth i rows []).
Proof.
  intros HN L F R H i Hi. destruct s as [reps pat off|n|e].
  - cbn [place_samples] in H. cbn [sec_words] in L. rewrite (place_words_rs zero w os pat reps) in H by lia. cbn [skipn] in H.
    apply bind_ok in H as (z & Hz & H). cbn [starts_sec section_prefixes].
    set (rs := concat (repeat (map (res_at w) pat) reps)) in *.
    assert (Lr : length rs = reps * length pat) by (unfold rs; rewrite length_concat_repeat, map_length; reflexivity).
    assert (Er : concat (repeat (map (fun i => word_prefix w os (res_at w i)) pat) reps) = map (word_prefix w os) rs).
    { unfold rs. clear. induction reps; [reflexivity|]. cbn [repeat concat]. rewrite map_app, map_map, IHreps. reflexivity. }
    rewrite Er.
    assert (Rr : Forall (fun r => r_ptype r = CYCLIC -> prefix_samples w os r <= slot w os) rs).
    { apply Forall_forall. intros r Hr. apply In_concat_repeat in Hr. apply in_map_iff in Hr as (k & <- & Hk). intro E. eapply R; eauto. }
    pose proof (rs_carries d w os HN rs rows z ltac:(lia) F Rr Hz i Hi) as Cz.
    assert (Lz : length z = sum (map (fun r => slot w os + eff w os r) rs)) by (apply (place_rs_length zero w os rs rows); [lia|exact F|exact Hz]).
    remember (sec_samples w os (SymSec reps pat off)) as m. destruct (Nat.leb_spec (length z) m); [|discriminate]. injection H as <-.
    apply carries_post; [|exact Cz]. rewrite Forall_forall in F. rewrite (F (nth i rows [])) by (apply nth_In; exact Hi). rewrite Lz.
    assert (Hin : In (nth i (starts_rs w os rs 0) 0) (starts_rs w os rs 0)) by (apply nth_In; rewrite starts_rs_length; lia).
    apply starts_rs_bound in Hin. lia.
  - cbn [sec_words] in L. lia.
  - cbn [sec_words] in L. destruct rows as [|g [|]]; try discriminate. inversion F as [|? ? Fg _]; subst. cbn [length] in Hi.
    assert (i = 0) by lia. subst i. cbn [place_samples concat] in H. rewrite app_nil_r, assign_exact in H by exact Fg. injection H as <-.
    cbn [section_prefixes starts_sec nth]. split; [lia|]. split; [lia|]. split; [reflexivity|]. intros. lia.
Qed.
Lemma section_prefixes_length w os s : length (section_prefixes w os s) = sec_words s.
Proof. destruct s; cbn; [|reflexivity..]. rewrite length_concat_repeat, map_length. reflexivity. Qed.
Lemma sections_carry d w os : 0 < slot w os -> forall l rows y, shape (sum (map sec_words l)) (slot w os) rows ->
  (forall reps pat off i, In (SymSec reps pat off) l -> In i pat -> r_ptype (res_at w i) = CYCLIC -> prefix_samples w os (res_at w i) <= slot w os) ->
  modulate_sections zero junk w os l rows = Ok y ->
  forall i, i < length rows -> carries d y (nth i (flat_map (section_prefixes w os) l) 0) (nth i (starts w os l 0) 0) (nth i rows []).
Proof.
  intro HN. induction l as [|s l IH]; intros rows y [L F] R H i Hi; cbn [map sum] in L; [lia|].
  cbn [modulate_sections] in H. apply bind_ok in H as (a & Ha & H). apply bind_ok in H as (b & Hb & H). injection H as <-.
  assert (FF : Forall (fun x => length x = slot w os) (firstn (sec_words s) rows) /\ Forall (fun x => length x = slot w os) (skipn (sec_words s) rows))
    by (rewrite <- Forall_app, firstn_skipn; exact F). destruct FF as [F1 F2].
  assert (L1 : length (firstn (sec_words s) rows) = sec_words s) by (rewrite firstn_length; lia).
  assert (La : length a = sec_samples w os s) by (eapply place_samples_length; eassumption).
  cbn [flat_map starts]. destruct (Nat.lt_ge_cases i (sec_words s)) as [Hlt|Hge].
  - rewrite !app_nth1 by (rewrite ?section_prefixes_length, ?starts_sec_length; exact Hlt).
    assert (Ca : carries d a (nth i (section_prefixes w os s) 0) (nth i (starts_sec w os s 0) 0) (nth i (firstn (sec_words s) rows) [])).
    { apply section_carries; try assumption; [|lia]. intros reps pat off k -> Hk. apply (R reps pat off k); [left; reflexivity|exact Hk]. }
    rewrite nth_firstn' in Ca by exact Hlt. apply carries_post; [|exact Ca].
    rewrite Forall_forall in F. rewrite (F (nth i rows [])) by (apply nth_In; exact Hi).
    assert (Hin : In (nth i (starts_sec w os s 0) 0) (starts_sec w os s 0)) by (apply nth_In; rewrite starts_sec_length; exact Hlt).
    apply starts_sec_bound in Hin. lia.
  - rewrite !app_nth2 by (rewrite ?section_prefixes_length, ?starts_sec_length; exact Hge). rewrite section_prefixes_length, starts_sec_length.
    specialize (IH (skipn (sec_words s) rows) b).
    assert (Cb : carries d b (nth (i - sec_words s) (flat_map (section_prefixes w os) l) 0) (nth (i - sec_words s) (starts w os l 0) 0) (nth (i - sec_words s) (skipn (sec_words s) rows) [])).
    { apply IH; [split; [rewrite skipn_length; lia|exact F2]| |exact Hb|rewrite skipn_length; lia]. intros reps pat off k Hin. apply (R reps pat off k). right. exact Hin. }
    rewrite nth_skipn' in Cb. replace (sec_words s + (i - sec_words s)) with i in Cb by lia.
    replace (0 + sec_samples w os s) with (length a + 0) by lia. rewrite starts_shift.
    rewrite (nth_map' (fun st => length a + st) _ 0) by (rewrite starts_length; lia). apply carries_pre, Cb.
Qed.
End W.

(** ** Spectra *)
Local Open Scope R_scope.
Local Open Scope C_scope.
Section Spectra.
Variables (dc : bool) (n os : nat).
Hypothesis (Hn : (0 < n)%nat) (Hos : (0 < os)%nat).
Let N := (os * n)%nat.
Definition phase (b i : nat) : C := cis (- (2 * PI * ((INR b - INR ((os * n) / 2)) / INR (os * n)) * INR i)).
Lemma shifted z b : length z = N -> (b < N)%nat -> nth b (fftshift (fft Backward z)) (RtoC 0) = csum (fun i => at0 z i * phase b i) N.
Proof.
  intros Lz Hb. assert (Hm : INR N <> 0%R) by (apply not_0_INR; lia).
  assert (Hh : (N / 2 < N)%nat) by (apply (pad_fits n os Hn Hos)).
  unfold fftshift. rewrite length_fft, Lz. rewrite rotate_roll, nth_rotate by (rewrite length_fft, Lz; lia). rewrite length_fft, Lz.
  assert (F : forall k, (k < N)%nat -> nth k (fft Backward z) (RtoC 0) = csum (fun i => at0 z i * cis (- turn N k i)) N).
  { intros k Hk. unfold fft. rewrite Lz, nth_tab by exact Hk. unfold fft_at. cbn [fft_scale]. ring. }
  destruct (Nat.ltb_spec b (N / 2)).
  - rewrite F by lia. apply csum_ext. intros i _. f_equal. unfold phase. fold N.
    rewrite <- (Cmult_1_r (cis (- (2 * PI * ((INR b - INR (N / 2)) / INR N) * INR i)))).
    rewrite <- (cis_neg_2PI_nat i), <- cis_add. f_equal. unfold turn. rewrite plus_INR, minus_INR by lia. field. exact Hm.
  - rewrite F by lia. apply csum_ext. intros i _. unfold phase. fold N. do 2 f_equal. unfold turn. rewrite minus_INR by lia. field. exact Hm.
Qed.
Lemma bin_lt j : (j < n)%nat -> (bin dc n os j < N)%nat.
Proof.
  intro Hj. pose proof (pad_fits n os Hn Hos) as (P1 & P2 & P3 & P4 & P5). unfold bin. destruct dc; [apply came_lt|]; unfold N; lia.
Qed.
Lemma sliced z j : length z = N -> (j < n)%nat ->
  nth j (slice (pad_start n os) (n + pad_start n os) (if dc then roll_tail_left (dc_index n os) z else z)) (RtoC 0) = nth (bin dc n os j) z (RtoC 0).
Proof.
  intros Lz Hj. pose proof (pad_fits n os Hn Hos) as (P1 & P2 & P3 & P4 & P5). unfold N in *. rewrite nth_slice by lia. unfold bin. destruct dc; [|reflexivity].
  rewrite nth_roll_tail_left by lia. rewrite Lz, P4. reflexivity.
Qed.
Lemma length_sliced (z : list C) : length z = N -> length (slice (pad_start n os) (n + pad_start n os) (if dc then roll_tail_left (dc_index n os) z else z)) = n.
Proof.
  intro Lz. pose proof (pad_fits n os Hn Hos) as (P1 & P2 & P3 & P4 & P5). unfold N in *. rewrite length_slice. destruct dc; [rewrite length_roll_tail_left|]; rewrite Lz; lia.
Qed.
Lemma backward_at y j : length y = N -> (j < n)%nat ->
  nth j (ofdm_backward_word dc n os y) (RtoC 0) = csum (fun i => at0 y i * phase (bin dc n os j) i) N * RtoC (/ sqrt (INR n) / INR os).
Proof.
  intros Ly Hj. unfold ofdm_backward_word. cbv zeta.
  assert (L : length (fftshift (fft Backward y)) = N) by (unfold fftshift; rewrite length_roll_right, length_fft; exact Ly).
  rewrite (nth_map' (fun c : C => c * RtoC (/ sqrt (INR n) / INR os)) _ (RtoC 0)) by (rewrite length_sliced by exact L; exact Hj).
  rewrite sliced by assumption. rewrite shifted by (try exact Ly; apply bin_lt, Hj). reflexivity.
Qed.
(** Demodulation of a superposition *)
Lemma backward_linear (T K : nat) (c : nat -> nat -> C) (z : nat -> nat -> list C) y j : length y = N -> (j < n)%nat ->
  (forall t k, (t < T)%nat -> (k < K)%nat -> length (z t k) = N) ->
  (forall q, (q < N)%nat -> at0 y q = csum (fun t => csum (fun k => c t k * at0 (z t k) q) K) T) ->
  nth j (ofdm_backward_word dc n os y) (RtoC 0) = csum (fun t => csum (fun k => c t k * nth j (ofdm_backward_word dc n os (z t k)) (RtoC 0)) K) T.
Proof.
  intros Ly Hj Lz Hy. rewrite backward_at by assumption.
  rewrite (csum_ext _ (fun i => csum (fun t => csum (fun k => c t k * at0 (z t k) i * phase (bin dc n os j) i) K) T)).
  2: { intros q Hq. rewrite Hy by exact Hq. rewrite <- csum_scal_r. apply csum_ext. intros t _. rewrite <- csum_scal_r. reflexivity. }
  rewrite csum_swap, <- csum_scal_r. apply csum_ext. intros t Ht. rewrite csum_swap, <- csum_scal_r. apply csum_ext. intros k Hk.
  rewrite backward_at by (try assumption; apply Lz; assumption). rewrite Cmult_assoc. f_equal. rewrite <- csum_scal. apply csum_ext. intros i _. ring.
Qed.
(** The frequency of a subcarrier *)
Lemma bin_frequency j : (j < n)%nat -> (INR (bin dc n os j) - INR ((os * n) / 2))%R = IZR (frequency_index dc n os j).
Proof.
  intro Hj. pose proof (pad_fits n os Hn Hos) as (P1 & P2 & P3 & P4 & P5). unfold bin, frequency_index, came.
  rewrite (Nat.mul_comm n os). set (M := (os * n)%nat) in *. rewrite !INR_IZR_INZ, <- minus_IZR. f_equal.
  destruct dc; cbn [andb].
  - destruct (Nat.ltb_spec (pad_start n os + j) (M / 2)), (Z.leb_spec 0 (Z.of_nat j - Z.of_nat (n / 2))); try lia.
    destruct (Nat.ltb_spec (S (pad_start n os + j)) M), (Z.ltb_spec (Z.of_nat j - Z.of_nat (n / 2) + 1) (Z.of_nat (M - M / 2))); lia.
  - lia.
Qed.
Lemma phase_frequency j i : (j < n)%nat -> phase (bin dc n os j) i = cis (- (2 * PI * (IZR (frequency_index dc n os j) / INR (n * os)) * INR i)).
Proof. intro Hj. unfold phase. rewrite bin_frequency by exact Hj. rewrite (Nat.mul_comm os n). reflexivity. Qed.
(** The spectrum of taps *)
Lemma resized_length m l : length (resized m l) = m.
Proof. unfold resized. rewrite app_length, firstn_length, repeat_length. lia. Qed.
Lemma resized_at m l i : (i < m)%nat -> at0 (resized m l) i = if (i <? length l)%nat then at0 l i else 0.
Proof.
  intro Hi. unfold at0, resized. destruct (Nat.ltb_spec i (length l)).
  - rewrite app_nth1 by (rewrite firstn_length; lia). apply nth_firstn'. exact Hi.
  - rewrite app_nth2 by (rewrite firstn_length; lia). apply nth_repeat'. rewrite firstn_length. lia.
Qed.
Lemma csum_cut (f : nat -> C) a b : (a <= b)%nat -> csum (fun i => if (i <? a)%nat then f i else 0) b = csum f a.
Proof.
  intro H. replace b with (a + (b - a))%nat by lia. rewrite csum_app. rewrite (csum_ext _ f) by (intros i Hi; destruct (Nat.ltb_spec i a); [reflexivity|lia]).
  rewrite (csum_ext (fun i => if (a + i <? a)%nat then f (a + i)%nat else 0) (fun _ => 0)); [rewrite csum_0; ring|].
  intros i Hi. destruct (Nat.ltb_spec (a + i) a); [lia|reflexivity].
Qed.
Lemma spectrum_word_length taps : length (spectrum_word dc n os taps) = n.
Proof.
  unfold spectrum_word. cbv zeta. apply length_sliced. unfold fftshift. rewrite length_roll_right, length_fft, resized_length. unfold N. lia.
Qed.
Lemma spectrum_word_at taps j : (j < n)%nat ->
  nth j (spectrum_word dc n os taps) (RtoC 0) = response dc n os (at0 taps) (Nat.min (length taps) (n * os)) j.
Proof.
  intro Hj. unfold spectrum_word. cbv zeta. replace (n * os)%nat with N by (unfold N; lia).
  assert (L : length (fftshift (fft Backward (resized N taps))) = N) by (unfold fftshift; rewrite length_roll_right, length_fft, resized_length; reflexivity).
  rewrite sliced by assumption. rewrite shifted by (try apply resized_length; apply bin_lt, Hj). unfold response.
  rewrite <- (csum_cut _ (Nat.min (length taps) N) N) by lia. apply csum_ext. intros i Hi. rewrite resized_at by exact Hi. rewrite phase_frequency by exact Hj.
  destruct (Nat.ltb_spec i (length taps)), (Nat.ltb_spec i (Nat.min (length taps) N)); try lia; [reflexivity|]. apply Cmult_0_l.
Qed.
End Spectra.

(** ** Estimation *)
Lemma mapM_all {X Y} (f : X -> result Y) (g : X -> Y) : forall l, (forall a, In a l -> f a = Ok (g a)) -> mapM f l = Ok (map g l).
Proof.
  induction l as [|a l IH]; intro H; [reflexivity|]. cbn [mapM map]. rewrite (H a) by (left; reflexivity). cbn [bind].
  rewrite IH by (intros b Hb; apply H; right; exact Hb). reflexivity.
Qed.
Lemma map_index {X Y} (g : X -> Y) (d : X) l : map (fun i => g (nth i l d)) (seq 0 (length l)) = map g l.
Proof.
  induction l as [|a l IH]; [reflexivity|]. cbn [length seq map nth]. f_equal. rewrite <- seq_shift, map_map. exact IH.
Qed.
Definition word_estimate dc (w : wave) os (states : list (list C)) (st : nat) : list C :=
  spectrum_word dc (w_sub w) os (map (fun s => mean (window (RtoC 0) w os s st)) states).
Definition not_pilot {A} (s : @section A) : Prop := match s with PilotSec _ => False | _ => True end.
Lemma extract_windows dc (w : wave) os s states : not_pilot s -> sec_offset s = 0%nat ->
  Forall (fun z => length z = sec_samples w os s) states ->
  extract dc w os s states = Ok (map (word_estimate dc w os states) (starts_sec w os s 0)).
Proof.
  intros Hp Ho F. unfold extract.
  assert (E : mapM (pick_samples w os s) states = Ok (map (fun z => map (window (RtoC 0) w os z) (starts_sec w os s 0)) states)).
  { apply mapM_all. intros z Hz. apply pick_sec; [exact Ho|]. rewrite Forall_forall in F. apply F, Hz. }
  rewrite E. cbn [bind]. destruct s; [|reflexivity|destruct Hp].
  f_equal. rewrite <- (starts_sec_length w os (SymSec reps pattern offset) 0).
  rewrite <- (map_index (word_estimate dc w os states) 0%nat). apply map_ext_in. intros i Hi. apply in_seq in Hi.
  unfold word_estimate. f_equal. rewrite map_map. apply map_ext. intro z. f_equal.
  apply nth_map'. lia.
Qed.
Lemma estimate_windows dc (w : wave) os : forall l states, Forall not_pilot l -> Forall (fun s => sec_offset s = 0%nat) l ->
  Forall (fun z => (sum (map (sec_samples w os) l) <= length z)%nat) states ->
  estimate_sections dc w os l states = Ok (map (word_estimate dc w os states) (starts w os l 0)).
Proof.
  induction l as [|s l IH]; intros states P O F; [reflexivity|]. inversion P as [|? ? Ps Pl]; subst. inversion O as [|? ? Os Ol]; subst. cbn [map sum] in F.
  cbn [estimate_sections starts].
  assert (E : (if (sec_words s =? 0)%nat then Ok [] else extract dc w os s (map (firstn (sec_samples w os s)) states))
              = Ok (map (word_estimate dc w os states) (starts_sec w os s 0))).
  { destruct (Nat.eqb_spec (sec_words s) 0) as [E0|E0].
    - pose proof (starts_sec_length w os s 0) as L. rewrite E0 in L. destruct (starts_sec w os s 0); [reflexivity|discriminate].
    - rewrite extract_windows; [|exact Ps|exact Os|].
      + f_equal. apply map_ext_in. intros st Hst. apply starts_sec_bound in Hst. unfold word_estimate. f_equal. rewrite map_map. apply map_ext. intro z. f_equal. apply window_first. lia.
      + rewrite Forall_map. revert F. apply Forall_impl. intros z Hz. rewrite firstn_length. lia. }
  rewrite E. cbn [bind]. rewrite IH; [|exact Pl|exact Ol|rewrite Forall_map; revert F; apply Forall_impl; intros z Hz; rewrite skipn_length; lia].
  cbn [bind]. f_equal. rewrite map_app. f_equal. rewrite (Nat.add_comm 0), starts_shift, map_map. apply map_ext. intro st.
  unfold word_estimate. f_equal. rewrite map_map. apply map_ext. intro z. f_equal. apply window_shift.
Qed.
Lemma estimate_pilot dc (w : wave) os : forall l states, (exists e, In (PilotSec e) l) -> Forall (fun s => sec_offset s = 0%nat) l ->
  Forall (fun z => (sum (map (sec_samples w os) l) <= length z)%nat) states -> estimate_sections dc w os l states = Raise ValueError.
Proof.
  induction l as [|s l IH]; intros states (e & He) O F; [destruct He|]. inversion O as [|? ? Os Ol]; subst. cbn [map sum] in F. cbn [estimate_sections].
  destruct He as [->|He]; [reflexivity|].
  assert (E : exists a, (if (sec_words s =? 0)%nat then Ok [] else extract dc w os s (map (firstn (sec_samples w os s)) states)) = a /\ (a = Raise ValueError \/ exists b, a = Ok b)).
  { eexists. split; [reflexivity|]. destruct (Nat.eqb_spec (sec_words s) 0); [right; eexists; reflexivity|].
    destruct s as [reps pat off|k|e']; [|right; eexists; rewrite extract_windows; [reflexivity|exact I|reflexivity|]|left; reflexivity].
    - right. eexists. apply extract_windows; [exact I|exact Os|]. rewrite Forall_map. revert F. apply Forall_impl. intros z Hz. rewrite firstn_length. lia.
    - rewrite Forall_map. revert F. apply Forall_impl. intros z Hz. rewrite firstn_length. lia. }
  destruct E as (a & -> & [->|[b ->]]); [reflexivity|]. cbn [bind]. rewrite IH; [reflexivity|exists e; exact He|exact Ol|].
  rewrite Forall_map. revert F. apply Forall_impl. intros z Hz. rewrite skipn_length. lia.
Qed.
Lemma mean_const (v : C) m : (0 < m)%nat -> mean (map (fun _ => v) (seq 0 m)) = v.
Proof.
  intro Hm. unfold mean. rewrite map_length, seq_length. rewrite (csum_ext _ (fun _ => v)).
  - rewrite csum_const. field. intro E. apply RtoC_inj in E. apply (not_0_INR m); [lia|exact E].
  - intros i Hi. unfold at0. rewrite (nth_map' (fun _ => v) _ 0%nat) by (rewrite seq_length; exact Hi). reflexivity.
Qed.

(** ** Frames *)
Lemma frame_carries junk dc (w : wave) os grid frame : (0 < w_sub w)%nat -> (0 < os)%nat -> prefixes_ok w os -> shape (words_per_frame w) (w_sub w) grid ->
  modulate (RtoC 0) junk (ofdm_forward dc (w_sub w) os) w os grid = Ok frame ->
  forall i, (i < words_per_frame w)%nat -> carries (RtoC 0) frame (nth i (cyclic_prefixes w os) 0%nat) (lead w os + nth i (starts w os (w_struct w) 0) 0)%nat
    (ofdm_forward_word dc (w_sub w) os (nth i grid [])).
Proof.
  intros Hn Ho Hp [Lg Fg] H i Hi. unfold modulate in H. apply bind_ok in H as (a & Ha & H). apply bind_ok in H as (b & Hb & H). injection H as <-.
  assert (La : length a = lead w os).
  { unfold lead. destruct (w_pilot w); [|injection Ha as <-; reflexivity]. unfold assign in Ha.
    destruct (Nat.eqb_spec (length (concat (ofdm_forward dc (w_sub w) os [pilot_sequence w o (w_sub w)]))) (slot w os)) as [E|E]; [injection Ha as <-; exact E|].
    destruct (concat _) as [|v [|]]; try discriminate. injection Ha as <-. apply repeat_length. }
  rewrite <- La. apply carries_pre.
  assert (E : nth i (ofdm_forward dc (w_sub w) os grid) [] = ofdm_forward_word dc (w_sub w) os (nth i grid [])).
  { unfold ofdm_forward. apply nth_map'. lia. }
  rewrite <- E. unfold cyclic_prefixes. apply (sections_carry (RtoC 0) junk (RtoC 0) w os) with (y := b).
  - unfold slot. nia.
  - split; [unfold ofdm_forward; rewrite map_length; exact Lg|]. unfold ofdm_forward. rewrite Forall_map. revert Fg. apply Forall_impl. intros r Hr.
    rewrite length_forward by assumption. unfold slot. lia.
  - exact Hp.
  - exact Hb.
  - unfold ofdm_forward. rewrite map_length. lia.
Qed.
Lemma demodulate_frame dc (w : wave) os z : Forall (fun s => sec_offset s = 0%nat) (w_struct w) -> length z = samples_per_frame w os ->
  demodulate (ofdm_backward dc (w_sub w) os) (ofdm_correct dc (w_sub w) os) w os z
  = Ok (map (fun st => ofdm_backward_word dc (w_sub w) os (window (RtoC 0) w os z (lead w os + st))) (starts w os (w_struct w) 0)).
Proof.
  intros O L. unfold demodulate. unfold samples_per_frame in L.
  assert (E : demodulate_sections w os (w_struct w) (match w_pilot w with Some _ => skipn (slot w os) z | None => z end)
              = Ok (map (fun st => window (RtoC 0) w os z (lead w os + st)) (starts w os (w_struct w) 0))).
  { unfold lead. destruct (w_pilot w).
    - rewrite (demodulate_windows (RtoC 0)) by (try exact O; rewrite skipn_length; lia). f_equal. apply map_ext. intro st. apply window_shift.
    - rewrite (demodulate_windows (RtoC 0)) by (try exact O; lia). reflexivity. }
  rewrite E. cbn [bind]. rewrite correct_none by exact O. unfold ofdm_backward. rewrite map_map. reflexivity.
Qed.
Lemma starts_bound {A} (w : @wave A) os : forall l pos st, In st (starts w os l pos) -> (pos <= st /\ st + slot w os <= pos + sum (map (sec_samples w os) l))%nat.
Proof.
  induction l as [|s l IH]; intros pos st H; [destruct H|]. cbn [starts map sum] in *. apply in_app_or in H as [H|H].
  - apply starts_sec_bound in H. lia.
  - apply IH in H. lia.
Qed.

(** ** Channels *)
Lemma frame_at_length f len y r : length (frame_at f len y r) = len.
Proof. unfold frame_at, tab. rewrite map_length, seq_length. reflexivity. Qed.
Lemma received_frame c f F frames r y : format c = Impulse -> (0 < ntaps c)%nat -> time_invariant c -> (F <= nsamples c)%nat -> length frames = ntx c ->
  (r < nrx c)%nat -> (forall t k, (t < ntx c)%nat -> (k < f)%nat -> h c r t 0%nat k = RtoC 0) ->
  csi_propagate c (signal_of F frames) = Ok y -> forall m, (m < F)%nat ->
  at0 (frame_at f F y r) m = csum (fun t => csum (fun d => if (d <=? m)%nat then h c r t 0%nat (f + d)%nat * at0 (nth t frames []) (m - d) else 0) (ntaps c - f)) (ntx c).
Proof.
  intros Hf Ht Hi HF Hl Hr H0 Hy m Hm.
  destruct (Chan_Proofs.csi_propagate_received c (signal_of F frames) Hf Ht Hl HF) as (y' & E & Hs & Hn & Hx). rewrite Hy in E. injection E as <-.
  cbn [signal_of samples] in Hn. unfold frame_at, at0 at 1. rewrite nth_tab by exact Hm. rewrite Hn.
  destruct (Nat.ltb_spec (f + m) (F + ntaps c - 1)) as [Hlt|Hge].
  2: { replace (ntaps c - f)%nat with 0%nat by lia. cbn [csum]. rewrite csum_0. reflexivity. }
  rewrite Hx by exact Hr. unfold Chan_Spec.received, Chan_Proofs.csi_taps. rewrite Chan_Proofs.total_map, Chan_Proofs.total_seq. cbn [Chan_Spec.td Chan_Spec.weight signal_of streams samples x].
  rewrite Hl, csum_swap. apply csum_ext. intros t Htt.
  destruct (Nat.le_gt_cases f (ntaps c)) as [Hft|Hft].
  - rewrite (csum_split _ f (ntaps c - f)) by lia.
    rewrite (csum_ext _ (fun _ => 0) f), csum_0, Cplus_0_l.
    + apply csum_ext. intros d Hd. replace (f + d <=? f + m)%nat with (d <=? m)%nat by (destruct (Nat.leb_spec d m), (Nat.leb_spec (f + d) (f + m)); lia || reflexivity).
      destruct (Nat.leb_spec d m) as [Hdm|Hdm]; [|reflexivity]. replace (f + m <? f + d + F)%nat with true by (symmetry; apply Nat.ltb_lt; lia). cbn [andb].
      replace (f + m - (f + d))%nat with (m - d)%nat by lia. rewrite Hi by lia. reflexivity.
    + intros k Hk. destruct (_ && _)%bool eqn:Eb; [|reflexivity]. apply andb_prop in Eb as [E1 E2]. apply Nat.leb_le in E1. apply Nat.ltb_lt in E2.
      rewrite Hi by lia. rewrite H0 by assumption. ring.
  - replace (ntaps c - f)%nat with 0%nat by lia. cbn [csum]. rewrite (csum_ext _ (fun _ => 0)), csum_0; [reflexivity|].
    intros k Hk. destruct (_ && _)%bool eqn:Eb; [|reflexivity]. apply andb_prop in Eb as [E1 E2]. apply Nat.leb_le in E1. apply Nat.ltb_lt in E2.
    rewrite Hi by lia. rewrite H0 by lia. ring.
Qed.
Lemma rotated_sample (frame g : list C) p st d q : carries (RtoC 0) frame p st g -> (d <= p)%nat -> (q < length g)%nat ->
  at0 (rotate d g) q = at0 frame (st + q - d).
Proof.
  intros (H1 & H2 & H3 & H4) Hd Hq. unfold at0. rewrite nth_rotate by lia. destruct (Nat.ltb_spec q d).
  - replace (st + q - d)%nat with (st - (d - q))%nat by lia. rewrite H4 by lia. f_equal. lia.
  - replace (st + q - d)%nat with (st + (q - d))%nat by lia. rewrite H3 by lia. reflexivity.
Qed.
Lemma multipath junk dc (w : wave) os c grids frames f r y :
  (0 < w_sub w)%nat -> (0 < os)%nat -> prefixes_ok w os -> Forall (fun s => sec_offset s = 0%nat) (w_struct w) ->
  format c = Impulse -> (0 < ntaps c)%nat -> time_invariant c -> (samples_per_frame w os <= nsamples c)%nat -> length grids = ntx c ->
  Forall (shape (words_per_frame w) (w_sub w)) grids ->
  Forall2 (fun g z => modulate (RtoC 0) junk (ofdm_forward dc (w_sub w) os) w os g = Ok z /\ length z = samples_per_frame w os) grids frames ->
  (r < nrx c)%nat -> (forall t k, (t < ntx c)%nat -> (k < f)%nat -> h c r t 0%nat k = RtoC 0) ->
  csi_propagate c (signal_of (samples_per_frame w os) frames) = Ok y ->
  exists rows, demodulate (ofdm_backward dc (w_sub w) os) (ofdm_correct dc (w_sub w) os) w os (frame_at f (samples_per_frame w os) y r) = Ok rows /\
    shape (words_per_frame w) (w_sub w) rows /\
    forall i j, (i < words_per_frame w)%nat -> (j < w_sub w)%nat -> (ntaps c <= 1 + f + nth i (cyclic_prefixes w os) 0)%nat ->
    at2 rows i j = csum (fun t => response dc (w_sub w) os (fun d => h c r t 0%nat (f + d)%nat) (ntaps c - f) j * at2 (nth t grids []) i j) (ntx c).
Proof.
  intros Hn Ho Hp O Hf Ht Hi HF Hg Sg HM Hr H0 Hy. set (n := w_sub w) in *. set (F := samples_per_frame w os) in *.
  assert (Lf : length frames = length grids) by (symmetry; exact (Forall2_len _ _ _ HM)).
  assert (HMt : forall t, (t < ntx c)%nat -> modulate (RtoC 0) junk (ofdm_forward dc n os) w os (nth t grids []) = Ok (nth t frames []) /\ length (nth t frames []) = F).
  { clear - HM Hg. rewrite <- Hg. clear Hg. induction HM as [|a b l m H HM IH]; intros t H'; [cbn in H'; lia|]. destruct t as [|t]; [exact H|]. cbn [nth length] in *. apply IH. lia. }
  pose proof (demodulate_frame dc w os (frame_at f F y r) O (frame_at_length _ _ _ _)) as ED. fold n in ED. rewrite ED.
  eexists. split; [reflexivity|]. split.
  - split; [rewrite map_length, starts_length; reflexivity|]. rewrite Forall_map. apply Forall_forall. intros st Hst. apply length_backward; [assumption..|].
    unfold window. rewrite map_length, seq_length. unfold slot. fold n. lia.
  - intros i j Hiw Hj Hpre. set (p := nth i (cyclic_prefixes w os) 0%nat) in *. set (s := nth i (starts w os (w_struct w) 0) 0%nat).
    assert (Hin : In s (starts w os (w_struct w) 0)) by (apply nth_In; rewrite starts_length; exact Hiw).
    apply starts_bound in Hin.
    assert (HFl : F = (sum (map (sec_samples w os) (w_struct w)) + lead w os)%nat) by reflexivity.
    assert (HS : slot w os = (os * n)%nat) by (unfold slot; fold n; lia).
    unfold at2. rewrite (nth_map' (fun st => ofdm_backward_word dc n os (window (RtoC 0) w os (frame_at f F y r) (lead w os + st))) _ 0%nat) by (rewrite starts_length; exact Hiw).
    fold s. unfold at0 at 1.
    assert (Hgt : forall t, (t < ntx c)%nat -> length (nth i (nth t grids []) []) = n).
    { intros t Htt. rewrite Forall_forall in Sg. destruct (Sg (nth t grids [])) as [L Fr]; [apply nth_In; lia|]. rewrite Forall_forall in Fr. apply Fr, nth_In. lia. }
    assert (Hct : forall t, (t < ntx c)%nat -> carries (RtoC 0) (nth t frames []) p (lead w os + s) (ofdm_forward_word dc n os (nth i (nth t grids []) []))).
    { intros t Htt. apply (frame_carries junk); try assumption; [|apply HMt, Htt]. rewrite Forall_forall in Sg. apply Sg, nth_In. lia. }
    rewrite (backward_linear dc n os Hn Ho (ntx c) (ntaps c - f) (fun t d => h c r t 0%nat (f + d)%nat) (fun t d => rotate d (ofdm_forward_word dc n os (nth i (nth t grids []) [])))).
    + apply csum_ext. intros t Htt. unfold response. rewrite <- csum_scal_r. apply csum_ext. intros d Hd.
      assert (Hdp : (d <= p)%nat) by lia. destruct (Hct t Htt) as (_ & C2 & _). rewrite length_forward in C2 by (try assumption; apply Hgt, Htt).
      rewrite received by (try assumption; try (apply Hgt, Htt); lia). rewrite bin_frequency by assumption. rewrite (Nat.mul_comm os n). unfold at0. ring.
    + unfold window. rewrite map_length, seq_length. exact HS.
    + exact Hj.
    + intros t d Htt Hd. unfold rotate. rewrite app_length, skipn_length, firstn_length, !length_forward by (try assumption; apply Hgt, Htt). lia.
    + intros q Hq. unfold window, at0 at 1. rewrite (nth_map' (fun q => nth (lead w os + s + q) (frame_at f F y r) (RtoC 0)) _ 0%nat) by (rewrite seq_length; lia).
      rewrite seq_nth by lia. rewrite Nat.add_0_l.
      change (nth (lead w os + s + q) (frame_at f F y r) (RtoC 0)) with (at0 (frame_at f F y r) (lead w os + s + q)).
      rewrite (received_frame c f F frames r y) by (try assumption; lia).
      apply csum_ext. intros t Htt. apply csum_ext. intros d Hd. assert (Hdp : (d <= p)%nat) by lia. pose proof (Hct t Htt) as Cr. pose proof Cr as (C1 & C2 & _).
      assert (Lg : length (ofdm_forward_word dc n os (nth i (nth t grids []) [])) = (os * n)%nat) by (apply length_forward; try assumption; apply Hgt, Htt).
      rewrite (rotated_sample (nth t frames []) _ p (lead w os + s) d q Cr Hdp) by (rewrite Lg; exact Hq).
      replace (d <=? lead w os + s + q)%nat with true by (symmetry; apply Nat.leb_le; lia). reflexivity.
Qed.

(** ** Estimates *)
Lemma pair_average dc (w : wave) os c r t : (0 < w_sub w)%nat -> (0 < os)%nat -> no_pilot_sections w -> Forall (fun s => sec_offset s = 0%nat) (w_struct w) ->
  (samples_per_frame w os <= nsamples c)%nat ->
  exists g, estimate_pair dc w os c r t = Ok g /\ shape (words_per_frame w) (w_sub w) g /\
  forall i j, (i < words_per_frame w)%nat -> (j < w_sub w)%nat -> at2 g i j = response dc (w_sub w) os (fun k => average (fun q => h c r t (nth i (word_starts w os) 0 + q)%nat k) (w_sub w * os)) (Nat.min (ntaps c) (w_sub w * os)) j.
Proof.
  intros Hn Ho P O HF. set (n := w_sub w) in *. unfold estimate_pair.
  set (states0 := map (fun k => tab (nsamples c) (fun i => h c r t i k)) (seq 0 (ntaps c))).
  assert (L0 : forall z, In z states0 -> length z = nsamples c).
  { intros z Hz. apply in_map_iff in Hz as (k & <- & _). unfold tab. rewrite map_length, seq_length. reflexivity. }
  unfold samples_per_frame in HF.
  assert (E : estimate_sections dc w os (w_struct w) (match w_pilot w with Some _ => map (skipn (slot w os)) states0 | None => states0 end)
              = Ok (map (fun st => word_estimate dc w os states0 (lead w os + st)) (starts w os (w_struct w) 0))).
  { unfold lead. destruct (w_pilot w).
    - rewrite estimate_windows; [|exact P|exact O|].
      + f_equal. apply map_ext. intro st. unfold word_estimate. f_equal. rewrite map_map. apply map_ext. intro z. f_equal. apply window_shift.
      + rewrite Forall_map. apply Forall_forall. intros z Hz. rewrite skipn_length, (L0 z Hz). lia.
    - rewrite estimate_windows; [reflexivity|exact P|exact O|]. apply Forall_forall. intros z Hz. rewrite (L0 z Hz). lia. }
  rewrite E. eexists. split; [reflexivity|]. split.
  - split; [rewrite map_length, starts_length; reflexivity|]. rewrite Forall_map. apply Forall_forall. intros st Hst. apply spectrum_word_length; assumption.
  - intros i j Hw Hj. unfold at2. rewrite (nth_map' (fun st => word_estimate dc w os states0 (lead w os + st)) _ 0%nat) by (rewrite starts_length; exact Hw).
    set (st := nth i (starts w os (w_struct w) 0) 0%nat).
    assert (Hin : In st (starts w os (w_struct w) 0)) by (apply nth_In; rewrite starts_length; exact Hw). apply starts_bound in Hin.
    assert (Hl : (sum (map (sec_samples w os) (w_struct w)) + lead w os <= nsamples c)%nat) by exact HF.
    unfold word_estimate, at0. fold n. rewrite spectrum_word_at by assumption. unfold states0. rewrite map_map, map_length, seq_length.
    unfold response. apply csum_ext. intros k Hk. f_equal. unfold at0.
    rewrite (nth_map' (fun k => mean (window (RtoC 0) w os (tab (nsamples c) (fun i0 => h c r t i0 k)) (lead w os + st))) _ 0%nat) by (rewrite seq_length; lia).
    rewrite seq_nth by lia. rewrite Nat.add_0_l. unfold mean, average, window. rewrite map_length, seq_length. fold n. unfold slot. fold n. f_equal. apply csum_ext. intros q Hq. unfold at0.
    rewrite (nth_map' (fun q => nth (lead w os + st + q) (tab (nsamples c) (fun i0 => h c r t i0 k)) (RtoC 0)) _ 0%nat) by (rewrite seq_length; exact Hq).
    rewrite seq_nth by exact Hq. rewrite Nat.add_0_l. unfold slot in Hin. fold n in Hin. rewrite nth_tab by lia. unfold word_starts.
    rewrite (nth_map' (fun st => (lead w os + st)%nat) _ 0%nat) by (rewrite starts_length; exact Hw). reflexivity.
Qed.
Lemma average_const (v : C) m : (0 < m)%nat -> average (fun _ => v) m = v.
Proof. intro Hm. unfold average. rewrite csum_const. field. intro E. apply RtoC_inj in E. apply (not_0_INR m); [lia|exact E]. Qed.
Lemma pair_estimate dc (w : wave) os c r t : (0 < w_sub w)%nat -> (0 < os)%nat -> no_pilot_sections w -> Forall (fun s => sec_offset s = 0%nat) (w_struct w) ->
  time_invariant c -> (samples_per_frame w os <= nsamples c)%nat ->
  exists g, estimate_pair dc w os c r t = Ok g /\ shape (words_per_frame w) (w_sub w) g /\
  forall i j, (i < words_per_frame w)%nat -> (j < w_sub w)%nat -> at2 g i j = response dc (w_sub w) os (fun k => h c r t 0%nat k) (Nat.min (ntaps c) (w_sub w * os)) j.
Proof.
  intros Hn Ho P O Hi HF. destruct (pair_average dc w os c r t Hn Ho P O HF) as (g & E & S & H). exists g. split; [exact E|]. split; [exact S|]. intros i j Hw Hj. rewrite H by assumption.
  unfold response. apply csum_ext. intros k _. f_equal. rewrite <- (average_const (h c r t 0%nat k) (w_sub w * os)) by nia. unfold average. f_equal. apply csum_ext. intros q Hq. apply Hi.
  unfold word_starts. rewrite (nth_map' (fun st => (lead w os + st)%nat) _ 0%nat) by (rewrite starts_length; exact Hw).
  assert (Hin : In (nth i (starts w os (w_struct w) 0) 0%nat) (starts w os (w_struct w) 0)) by (apply nth_In; rewrite starts_length; exact Hw). apply starts_bound in Hin.
  unfold samples_per_frame in HF. fold (lead w os) in HF. unfold slot in *. lia.
Qed.
Lemma mapM_exists {X Y} (f : X -> result Y) (Q : X -> Y -> Prop) : forall l, (forall a, In a l -> exists b, f a = Ok b /\ Q a b) -> exists m, mapM f l = Ok m /\ Forall2 Q l m.
Proof.
  induction l as [|a l IH]; intro H; [exists []; split; [reflexivity|constructor]|]. destruct (H a) as (b & Eb & Qb); [left; reflexivity|].
  destruct IH as (m & Em & Qm); [intros; apply H; right; assumption|]. exists (b :: m). split; [cbn [mapM]; rewrite Eb; cbn [bind]; rewrite Em; reflexivity|constructor; assumption].
Qed.
Lemma Forall2_seq {Y} (Q : nat -> Y -> Prop) d : forall k m l, Forall2 Q (seq m k) l -> forall i, (i < k)%nat -> Q (m + i)%nat (nth i l d).
Proof.
  induction k as [|k IH]; intros m l H i Hi; [lia|]. cbn [seq] in H. inversion H as [|? b ? l' Hb Hl]; subst. destruct i as [|i]; [rewrite Nat.add_0_r; exact Hb|].
  cbn [nth]. replace (m + S i)%nat with (S m + i)%nat by lia. apply (IH (S m) l' Hl). lia.
Qed.
Lemma all_averages dc (w : wave) os state c streams delay : (0 < w_sub w)%nat -> (0 < os)%nat -> no_pilot_sections w -> Forall (fun s => sec_offset s = 0%nat) (w_struct w) ->
  state (samples_per_frame w os) (samples_per_frame w os) = Ok c -> (samples_per_frame w os <= nsamples c)%nat -> (streams <= nrx c)%nat ->
  exists est, estimate dc w os (Some state) streams delay = Ok est /\ length est = streams /\
  forall r, (r < streams)%nat -> length (nth r est []) = ntx c /\
  forall t, (t < ntx c)%nat -> shape (words_per_frame w) (w_sub w) (nth t (nth r est []) []) /\
  forall i j, (i < words_per_frame w)%nat -> (j < w_sub w)%nat ->
  at2 (nth t (nth r est []) []) i j = response dc (w_sub w) os (fun k => average (fun q => h c r t (nth i (word_starts w os) 0 + q)%nat k) (w_sub w * os)) (Nat.min (ntaps c) (w_sub w * os)) j.
Proof.
  intros Hn Ho P O Hst HF Hs. unfold estimate. rewrite Hst. cbn [bind]. rewrite Nat.min_r by exact Hs. rewrite Nat.eqb_refl. cbn [orb].
  set (source := fun r : nat => if (streams =? 1)%nat then 0%nat else r).
  assert (Hsrc : forall r, (r < streams)%nat -> source r = r) by (intros r Hr; unfold source; destruct (Nat.eqb_spec streams 1); lia).
  set (Q := fun r t g => shape (words_per_frame w) (w_sub w) g /\ forall i j, (i < words_per_frame w)%nat -> (j < w_sub w)%nat ->
     at2 g i j = response dc (w_sub w) os (fun k => average (fun q => h c r t (nth i (word_starts w os) 0 + q)%nat k) (w_sub w * os)) (Nat.min (ntaps c) (w_sub w * os)) j).
  destruct (mapM_exists (fun r => mapM (fun t => estimate_pair dc w os c (source r) t) (seq 0 (ntx c))) (fun r l => Forall2 (Q r) (seq 0 (ntx c)) l) (seq 0 streams)) as (est & Ee & He).
  - intros r Hr. apply in_seq in Hr. apply mapM_exists. intros t _. rewrite Hsrc by lia. unfold Q. destruct (pair_average dc w os c r t Hn Ho P O HF) as (g & Eg & Sg & Hg). exists g. auto.
  - exists est. split; [exact Ee|]. split; [rewrite <- (Forall2_len _ _ _ He), seq_length; reflexivity|]. intros r Hr.
    pose proof (Forall2_seq _ [] _ _ _ He r Hr) as Hl. cbn beta in Hl. rewrite Nat.add_0_l in Hl. split; [rewrite <- (Forall2_len _ _ _ Hl), seq_length; reflexivity|].
    intros t Ht. pose proof (Forall2_seq _ [] _ _ _ Hl t Ht) as Hg. rewrite Nat.add_0_l in Hg. exact Hg.
Qed.
Lemma all_estimates dc (w : wave) os state c streams delay : (0 < w_sub w)%nat -> (0 < os)%nat -> no_pilot_sections w -> Forall (fun s => sec_offset s = 0%nat) (w_struct w) ->
  state (samples_per_frame w os) (samples_per_frame w os) = Ok c -> time_invariant c -> (samples_per_frame w os <= nsamples c)%nat -> (streams <= nrx c)%nat ->
  exists est, estimate dc w os (Some state) streams delay = Ok est /\ length est = streams /\
  forall r, (r < streams)%nat -> length (nth r est []) = ntx c /\
  forall t, (t < ntx c)%nat -> shape (words_per_frame w) (w_sub w) (nth t (nth r est []) []) /\
  forall i j, (i < words_per_frame w)%nat -> (j < w_sub w)%nat ->
  at2 (nth t (nth r est []) []) i j = response dc (w_sub w) os (fun k => h c r t 0%nat k) (Nat.min (ntaps c) (w_sub w * os)) j.
Proof.
  intros Hn Ho P O Hst Hi HF Hs. unfold estimate. rewrite Hst. cbn [bind]. rewrite Nat.min_r by exact Hs. rewrite Nat.eqb_refl. cbn [orb].
  set (source := fun r : nat => if (streams =? 1)%nat then 0%nat else r).
  assert (Hsrc : forall r, (r < streams)%nat -> source r = r) by (intros r Hr; unfold source; destruct (Nat.eqb_spec streams 1); lia).
  set (Q := fun r t g => shape (words_per_frame w) (w_sub w) g /\ forall i j, (i < words_per_frame w)%nat -> (j < w_sub w)%nat ->
     at2 g i j = response dc (w_sub w) os (fun k => h c r t 0%nat k) (Nat.min (ntaps c) (w_sub w * os)) j).
  destruct (mapM_exists (fun r => mapM (fun t => estimate_pair dc w os c (source r) t) (seq 0 (ntx c))) (fun r l => Forall2 (Q r) (seq 0 (ntx c)) l) (seq 0 streams)) as (est & Ee & He).
  - intros r Hr. apply in_seq in Hr. apply mapM_exists. intros t _. rewrite Hsrc by lia. unfold Q. destruct (pair_estimate dc w os c r t Hn Ho P O Hi HF) as (g & Eg & Sg & Hg). exists g. auto.
  - exists est. split; [exact Ee|]. split; [rewrite <- (Forall2_len _ _ _ He), seq_length; reflexivity|]. intros r Hr.
    pose proof (Forall2_seq _ [] _ _ _ He r Hr) as Hl. cbn beta in Hl. rewrite Nat.add_0_l in Hl. split; [rewrite <- (Forall2_len _ _ _ Hl), seq_length; reflexivity|].
    intros t Ht. pose proof (Forall2_seq _ [] _ _ _ Hl t Ht) as Hg. rewrite Nat.add_0_l in Hg. exact Hg.
Qed.
Lemma response_late dc n os taps len f j : (forall k, (k < f)%nat -> taps k = RtoC 0) -> (f <= len)%nat ->
  response dc n os taps len j = cis (- (2 * PI * (IZR (frequency_index dc n os j) / INR (n * os)) * INR f)) * response dc n os (fun d => taps (f + d)%nat) (len - f) j.
Proof.
  intros H0 Hf. unfold response. rewrite (csum_split _ f (len - f)) by lia. rewrite (csum_ext _ (fun _ => 0) f), csum_0, Cplus_0_l by (intros k Hk; rewrite H0 by exact Hk; ring).
  rewrite <- csum_scal. apply csum_ext. intros d _. rewrite plus_INR. rewrite Cmult_assoc, (Cmult_comm (cis _)), <- Cmult_assoc, <- cis_add. do 2 f_equal. ring.
Qed.
