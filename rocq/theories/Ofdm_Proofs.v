From Coq Require Import Reals List Arith Bool Lia Lra.
From Coquelicot Require Import Complex.
From Verif Require Import Base BaseLemmas Cplx Cplx_Proofs Grid_Model Grid_Spec Ofdm_Model.
Import ListNotations.
Open Scope R_scope.
Open Scope C_scope.


(** *** Entries of lists *)
Lemma nth_skipn' {B} k (x : list B) d : forall i, nth i (skipn k x) d = nth (k + i) x d.
Proof.
  revert x. induction k; intros x i; [reflexivity|]. destruct x; cbn [skipn].
  - destruct i; reflexivity.
  - rewrite IHk. reflexivity.
Qed.
Lemma nth_firstn' {B} k (x : list B) d : forall i, (i < k)%nat -> nth i (firstn k x) d = nth i x d.
Proof.
  revert x. induction k; intros x i H; [lia|]. destruct x; [reflexivity|]. destruct i; [reflexivity|].
  cbn [firstn nth]. apply IHk. lia.
Qed.
Lemma nth_slice {B} a b (x : list B) d i : (i < b - a)%nat -> nth i (slice a b x) d = nth (a + i) x d.
Proof. intro H. unfold slice. rewrite nth_firstn' by exact H. apply nth_skipn'. Qed.
Lemma nth_map' {B D} (f : B -> D) (x : list B) d d' i : (i < length x)%nat -> nth i (map f x) d' = f (nth i x d).
Proof.
  intro H. rewrite nth_indep with (d' := f d) by (rewrite map_length; exact H). apply map_nth.
Qed.
Lemma nth_repeat' {B} (a : B) n i d : (i < n)%nat -> nth i (repeat a n) d = a.
Proof. revert i. induction n; intros i H; [lia|]. destruct i; [reflexivity|]. apply IHn. lia. Qed.
Lemma list_tab {B} (d : B) n x f : length x = n -> (forall i, (i < n)%nat -> nth i x d = f i) -> x = tab n f.
Proof. intros <- H. rewrite <- (tab_nth d x) at 1. apply tab_ext. exact H. Qed.

Lemma nth_rotate {B} s (x : list B) d i : (i < length x)%nat -> (s <= length x)%nat ->
  nth i (rotate s x) d = if (i <? s)%nat then nth (length x - s + i) x d else nth (i - s) x d.
Proof.
  intros Hi Hs. unfold rotate.
  assert (L : length (skipn (length x - s) x) = s) by (rewrite skipn_length; lia).
  destruct (Nat.ltb_spec i s).
  - rewrite app_nth1 by lia. apply nth_skipn'.
  - rewrite app_nth2 by lia. rewrite L. apply nth_firstn'. lia.
Qed.
Lemma rotate_roll {B} s (x : list B) : roll_right s x = rotate s x.
Proof. reflexivity. Qed.
Lemma nth_roll_left {B} s (x : list B) d i : (i < length x)%nat -> (s <= length x)%nat ->
  nth i (roll_left s x) d = if (i <? length x - s)%nat then nth (s + i) x d else nth (i - (length x - s)) x d.
Proof.
  intros Hi Hs. unfold roll_left.
  assert (L : length (skipn s x) = (length x - s)%nat) by (rewrite skipn_length; lia).
  destruct (Nat.ltb_spec i (length x - s)).
  - rewrite app_nth1 by lia. apply nth_skipn'.
  - rewrite app_nth2 by lia. rewrite L. apply nth_firstn'. lia.
Qed.

Lemma length_roll_tail_left {B} k (x : list B) : length (roll_tail_left k x) = length x.
Proof. unfold roll_tail_left. rewrite app_length, length_roll_left, firstn_length, skipn_length. lia. Qed.
Lemma length_roll_tail_right {B} k (x : list B) : length (roll_tail_right k x) = length x.
Proof. unfold roll_tail_right. rewrite app_length, length_roll_right, firstn_length, skipn_length. lia. Qed.
Lemma roll_tail_left_right {B} k (x : list B) : (k < length x)%nat -> roll_tail_left k (roll_tail_right k x) = x.
Proof.
  intro H. unfold roll_tail_left, roll_tail_right.
  assert (L : length (firstn k x) = k) by (rewrite firstn_length; lia).
  rewrite skipn_app, firstn_app, L, Nat.sub_diag.
  rewrite (firstn_all2 (firstn k x)), (skipn_all2 (firstn k x)) by lia.
  cbn [firstn skipn app]. rewrite app_nil_r, roll_left_right by (rewrite skipn_length; lia).
  apply firstn_skipn.
Qed.
(** The entry that comes to position [p]. *)
Definition came (k m p : nat) : nat := if (p <? k)%nat then p else if (S p <? m)%nat then S p else k.
Lemma nth_roll_tail_left {B} k (x : list B) d p : (k < length x)%nat -> (p < length x)%nat ->
  nth p (roll_tail_left k x) d = nth (came k (length x) p) x d.
Proof.
  intros Hk Hp. unfold roll_tail_left, came.
  assert (L : length (firstn k x) = k) by (rewrite firstn_length; lia).
  destruct (Nat.ltb_spec p k).
  - rewrite app_nth1 by lia. apply nth_firstn'. lia.
  - rewrite app_nth2 by lia. rewrite L. rewrite nth_roll_left by (rewrite skipn_length; lia).
    rewrite skipn_length. destruct (Nat.ltb_spec (p - k) (length x - k - 1)).
    + destruct (Nat.ltb_spec (S p) (length x)); [|lia]. rewrite nth_skipn'. f_equal. lia.
    + destruct (Nat.ltb_spec (S p) (length x)); [lia|]. rewrite nth_skipn'. f_equal. lia.
Qed.
Lemma nth_roll_tail_right {B} k (x : list B) d p : (k < length x)%nat -> (p < length x)%nat ->
  nth (came k (length x) p) (roll_tail_right k x) d = nth p x d.
Proof.
  intros Hk Hp. rewrite <- (length_roll_tail_right k x).
  rewrite <- nth_roll_tail_left by (rewrite length_roll_tail_right; assumption).
  rewrite roll_tail_left_right by exact Hk. reflexivity.
Qed.
Lemma came_lt k m p : (k < m)%nat -> (p < m)%nat -> (came k m p < m)%nat.
Proof. intros. unfold came. destruct (Nat.ltb_spec p k), (Nat.ltb_spec (S p) m); lia. Qed.

Lemma csum_split f a b m : m = (a + b)%nat -> csum f m = csum f a + csum (fun i => f (a + i)%nat) b.
Proof. intros ->. apply csum_app. Qed.

(** *** OFDM *)
Section Ofdm.
Variables (dc : bool) (n os : nat).
Hypothesis (Hn : (0 < n)%nat) (Hos : (0 < os)%nat).

Lemma half_le a b : (a <= b)%nat -> (a / 2 <= b / 2)%nat.
Proof. intro H. apply Nat.div_le_mono; lia. Qed.
Lemma pad_fits : (n <= os * n /\ pad_start n os + n <= os * n /\ pad_start n os + n / 2 = (os * n) / 2
   /\ dc_index n os = (os * n) / 2 /\ (os * n) / 2 < os * n)%nat.
Proof.
  assert (H : (n <= os * n)%nat) by nia. unfold pad_start, dc_index. rewrite (Nat.mul_comm n os).
  pose proof (half_le n (os * n) H). split; [exact H|].
  pose proof (Nat.div_mod n 2 ltac:(lia)). pose proof (Nat.mod_upper_bound n 2 ltac:(lia)).
  pose proof (Nat.div_mod (os * n) 2 ltac:(lia)). pose proof (Nat.mod_upper_bound (os * n) 2 ltac:(lia)).
  lia.
Qed.

Definition scaled (x : list C) : list C := map (fun c => c / RtoC (sqrt (INR n))) x.
Definition padded0 (x : list C) : list C :=
  repeat (RtoC 0) (pad_start n os) ++ scaled x ++ repeat (RtoC 0) (os * n - n - pad_start n os).
Definition padded (x : list C) : list C :=
  if dc then roll_tail_right (dc_index n os) (padded0 x) else padded0 x.

Lemma length_padded0 x : length x = n -> length (padded0 x) = (os * n)%nat.
Proof.
  intro H. unfold padded0, scaled. rewrite !app_length, !repeat_length, map_length.
  pose proof pad_fits. lia.
Qed.
Lemma length_padded x : length x = n -> length (padded x) = (os * n)%nat.
Proof.
  intro H. unfold padded. destruct dc; [rewrite length_roll_tail_right|]; apply length_padded0, H.
Qed.
Lemma nth_padded0 x j : length x = n -> (j < n)%nat ->
  nth (pad_start n os + j) (padded0 x) (RtoC 0) = nth j x (RtoC 0) / RtoC (sqrt (INR n)).
Proof.
  intros H Hj. unfold padded0. rewrite app_nth2; rewrite repeat_length; [|lia].
  rewrite app_nth1; unfold scaled; [|rewrite map_length; lia].
  replace (pad_start n os + j - pad_start n os)%nat with j by lia.
  apply (nth_map' (fun c : C => c / RtoC (sqrt (INR n)))). lia.
Qed.

Lemma length_forward x : length x = n -> length (ofdm_forward_word dc n os x) = (os * n)%nat.
Proof.
  intro H. unfold ofdm_forward_word. cbv zeta. rewrite length_ifft. unfold ifftshift.
  rewrite length_roll_left. apply length_padded, H.
Qed.

(** Spectrum of a cyclically shifted vector. *)
Lemma fft_rotate off y k : (off <= length y)%nat -> (k < length y)%nat ->
  fft_at Backward (at0 (rotate off y)) (length y) k
  = fft_at Backward (at0 y) (length y) k * cis (- turn (length y) k off).
Proof.
  intros Ho Hk. set (m := length y) in *. unfold fft_at. cbn [fft_scale].
  assert (Hm : INR m <> 0%R) by (apply not_0_INR; lia).
  assert (E : csum (fun i => at0 (rotate off y) i * cis (- turn m k i)) m
    = csum (fun i => at0 y i * cis (- turn m k i)) m * cis (- turn m k off)).
  { rewrite <- csum_scal_r.
    rewrite (csum_split _ off (m - off) m) by lia.
    rewrite (csum_split (fun i => at0 y i * cis (- turn m k i) * cis (- turn m k off)) (m - off) off m) by lia.
    rewrite Cplus_comm. f_equal.
    - apply csum_ext. intros i Hi. unfold at0. rewrite nth_rotate by (fold m; lia).
      destruct (Nat.ltb_spec (off + i) off); [lia|].
      replace (off + i - off)%nat with i by lia. rewrite <- Cmult_assoc, <- cis_add. do 2 f_equal.
      unfold turn. rewrite plus_INR. field. exact Hm.
    - apply csum_ext. intros i Hi. unfold at0. rewrite nth_rotate by (fold m; lia). fold m.
      destruct (Nat.ltb_spec i off); [|lia]. rewrite <- Cmult_assoc, <- cis_add. f_equal.
      replace (cis (- turn m k i)) with (cis (- turn m k i) * cis (- (2 * PI * INR k)))
        by (rewrite cis_neg_2PI_nat; ring).
      rewrite <- cis_add. f_equal. unfold turn. rewrite plus_INR, minus_INR by lia. field. exact Hm. }
  rewrite E. ring.
Qed.

(** The shifted spectrum of the received word, entry by entry. *)
Lemma spectrum x off i : length x = n -> (off <= os * n)%nat -> (i < os * n)%nat ->
  nth i (fftshift (fft Backward (rotate off (ofdm_forward_word dc n os x)))) (RtoC 0)
  = RtoC (INR (os * n)) * nth i (padded x) (RtoC 0)
    * cis (- (2 * PI * ((INR i - INR ((os * n) / 2)) / INR (os * n)) * INR off)).
Proof.
  intros Hx Hoff Hi. set (m := (os * n)%nat) in *.
  assert (Hm : INR m <> 0%R) by (apply not_0_INR; lia).
  set (y := ofdm_forward_word dc n os x).
  assert (Ly : length y = m) by (apply length_forward, Hx).
  assert (Lr : length (rotate off y) = m) by (unfold rotate; rewrite app_length, skipn_length, firstn_length; lia).
  assert (Lp : length (padded x) = m) by (apply length_padded, Hx).
  assert (Hh : (m / 2 < m)%nat) by apply pad_fits.
  assert (F : forall k, (k < m)%nat -> nth k (fft Backward (rotate off y)) (RtoC 0)
     = RtoC (INR m) * nth k (ifftshift (padded x)) (RtoC 0) * cis (- turn m k off)).
  { intros k Hk. unfold fft. rewrite Lr. rewrite nth_tab by exact Hk. rewrite <- Ly.
    rewrite fft_rotate by lia. rewrite Ly. f_equal.
    transitivity (nth k (fft Backward y) (RtoC 0)).
    { unfold fft. rewrite Ly, nth_tab by exact Hk. reflexivity. }
    unfold y, ofdm_forward_word. cbv zeta. fold (scaled x).
    change (repeat (RtoC 0) (pad_start n os) ++ scaled x ++ repeat (RtoC 0) (os * n - n - pad_start n os))
      with (padded0 x). fold (padded x).
    assert (Li : length (ifftshift (padded x)) = m) by (unfold ifftshift; rewrite length_roll_left; exact Lp).
    rewrite fft_ifft_gen, Li. cbn [fft_scale ifft_scale].
    rewrite (nth_map' (fun c : C => RtoC (1 * 1 * INR m) * c) _ (RtoC 0)) by lia.
    rewrite Rmult_1_r, Rmult_1_l. reflexivity. }
  unfold fftshift. rewrite length_fft, Lr. rewrite rotate_roll, nth_rotate by (rewrite length_fft; lia).
  rewrite length_fft, Lr. unfold ifftshift in F. rewrite Lp in F.
  destruct (Nat.ltb_spec i (m / 2)).
  - rewrite F by lia. rewrite nth_roll_left by lia. rewrite Lp.
    destruct (Nat.ltb_spec (m - m / 2 + i) (m - m / 2)); [lia|].
    replace (m - m / 2 + i - (m - m / 2))%nat with i by lia. f_equal.
    rewrite <- (Cmult_1_r (cis (- (2 * PI * ((INR i - INR (m / 2)) / INR m) * INR off)))).
    rewrite <- (cis_neg_2PI_nat off), <- cis_add. f_equal. unfold turn.
    rewrite plus_INR, minus_INR by lia. field. exact Hm.
  - rewrite F by lia. rewrite nth_roll_left by lia. rewrite Lp.
    destruct (Nat.ltb_spec (i - m / 2) (m - m / 2)); [|lia].
    replace (m / 2 + (i - m / 2))%nat with i by lia. do 2 f_equal.
    unfold turn. rewrite minus_INR by lia. field. exact Hm.
Qed.

(** Where the symbol of subcarrier [j] travels in the shifted spectrum. *)
Definition bin (j : nat) : nat :=
  if dc then came ((os * n) / 2) (os * n) (pad_start n os + j) else (pad_start n os + j)%nat.

Lemma sqrt_n_neq : RtoC (sqrt (INR n)) <> 0.
Proof.
  intro E. apply RtoC_inj in E. assert (0 < sqrt (INR n))%R by (apply sqrt_lt_R0, lt_0_INR; exact Hn). lra.
Qed.

Lemma received x off j : length x = n -> (off <= os * n)%nat -> (j < n)%nat ->
  nth j (ofdm_backward_word dc n os (rotate off (ofdm_forward_word dc n os x))) (RtoC 0)
  = nth j x (RtoC 0)
    * cis (- (2 * PI * ((INR (bin j) - INR ((os * n) / 2)) / INR (os * n)) * INR off)).
Proof.
  intros Hx Hoff Hj. pose proof pad_fits as (P1 & P2 & P3 & P4 & P5).
  unfold ofdm_backward_word. cbv zeta.
  set (G := fftshift (fft Backward (rotate off (ofdm_forward_word dc n os x)))).
  assert (LG : length G = (os * n)%nat).
  { unfold G, fftshift. rewrite length_roll_right, length_fft. unfold rotate.
    rewrite app_length, skipn_length, firstn_length, (length_forward x Hx). lia. }
  set (G' := if dc then roll_tail_left (dc_index n os) G else G).
  assert (LG' : length G' = (os * n)%nat) by (unfold G'; destruct dc; [rewrite length_roll_tail_left|]; exact LG).
  rewrite (nth_map' (fun c : C => c * RtoC (/ sqrt (INR n) / INR os)) _ (RtoC 0)).
  2: { rewrite length_slice, LG'. lia. }
  rewrite nth_slice by lia.
  assert (EG : nth (pad_start n os + j) G' (RtoC 0)
     = RtoC (INR (os * n)) * (nth j x (RtoC 0) / RtoC (sqrt (INR n)))
       * cis (- (2 * PI * ((INR (bin j) - INR ((os * n) / 2)) / INR (os * n)) * INR off))).
  { unfold G', bin. destruct dc eqn:Edc.
    - rewrite nth_roll_tail_left by lia. rewrite LG, P4. unfold G.
      pose proof (came_lt ((os * n) / 2) (os * n) (pad_start n os + j) ltac:(lia) ltac:(lia)) as Hc.
      pose proof (spectrum x off _ Hx Hoff Hc) as Hs. rewrite Edc in Hs. rewrite Hs.
      do 2 f_equal. unfold padded. rewrite Edc, P4.
      rewrite <- (nth_padded0 x j Hx Hj).
      pose proof (length_padded0 x Hx) as L0. rewrite <- L0 at 2.
      apply nth_roll_tail_right; lia.
    - unfold G. pose proof (spectrum x off (pad_start n os + j) Hx Hoff ltac:(lia)) as Hs.
      rewrite Edc in Hs. rewrite Hs. do 2 f_equal. unfold padded. rewrite Edc.
      apply nth_padded0; assumption. }
  rewrite EG.
  assert (Hs : (sqrt (INR n) * sqrt (INR n) = INR n)%R) by (apply sqrt_sqrt, pos_INR).
  assert (Ho : INR os <> 0%R) by (apply not_0_INR; lia).
  assert (Hq : sqrt (INR n) <> 0%R) by (apply Rgt_not_eq, sqrt_lt_R0, lt_0_INR; exact Hn).
  set (ph := cis _).
  transitivity (RtoC (INR (os * n) * / sqrt (INR n) * (/ sqrt (INR n) / INR os)) * nth j x (RtoC 0) * ph).
  - rewrite !RtoC_mult, RtoC_inv by exact Hq. unfold Cdiv. ring.
  - replace (INR (os * n) * / sqrt (INR n) * (/ sqrt (INR n) / INR os))%R with 1%R; [ring|].
    rewrite mult_INR. revert Hs Hq. generalize (sqrt (INR n)) as q. intros q Hs Hq. rewrite <- Hs.
    field. split; assumption.
Qed.

Lemma length_backward y : length y = (os * n)%nat -> length (ofdm_backward_word dc n os y) = n.
Proof.
  intro Ly. pose proof pad_fits as (P1 & P2 & P3 & P4 & P5). unfold ofdm_backward_word. cbv zeta.
  rewrite map_length, length_slice.
  assert (L : length (fftshift (fft Backward y)) = (os * n)%nat)
    by (unfold fftshift; rewrite length_roll_right, length_fft; exact Ly).
  destruct dc; [rewrite length_roll_tail_left|]; rewrite L; lia.
Qed.

Lemma ofdm_word_roundtrip x : length x = n ->
  ofdm_backward_word dc n os (ofdm_forward_word dc n os x) = x.
Proof.
  intro Hx. apply nth_ext with (d := RtoC 0) (d' := RtoC 0).
  - rewrite length_backward by (apply length_forward, Hx). auto.
  - rewrite length_backward by (apply length_forward, Hx). intros j Hj.
    assert (R0 : forall z : list C, rotate 0 z = z).
    { intro z. unfold rotate. rewrite Nat.sub_0_r, skipn_all, firstn_all. reflexivity. }
    rewrite <- (R0 (ofdm_forward_word dc n os x)).
    rewrite received by (try assumption; lia). cbn [INR]. rewrite Rmult_0_r, Ropp_0, cis_0. ring.
Qed.

(** What is left of a sample offset after the correction. *)
Definition residual (off j : nat) : C :=
  if (dc && (S j =? n)%nat && (pad_start n os + n <? os * n)%nat)%bool
  then cis (- (2 * PI * (INR (n - n / 2) / INR (os * n)) * INR off)) else 1.

Lemma corrected x off : length x = n -> (off <= os * n)%nat ->
  ofdm_correct_word dc n os off
    (ofdm_backward_word dc n os (rotate off (ofdm_forward_word dc n os x)))
  = tab n (fun j => nth j x (RtoC 0) * residual off j).
Proof.
  intros Hx Hoff. pose proof pad_fits as (P1 & P2 & P3 & P4 & P5).
  set (y := ofdm_backward_word dc n os (rotate off (ofdm_forward_word dc n os x))).
  assert (Ly : length y = n).
  { unfold y. apply length_backward. unfold rotate.
    rewrite app_length, skipn_length, firstn_length, (length_forward x Hx). lia. }
  unfold ofdm_correct_word. cbv zeta. rewrite Ly.
  set (fr := slice (pad_start n os) (pad_start n os + n) (shifted_freqs (os * n))).
  assert (Lf : length fr = n).
  { unfold fr. rewrite length_slice. unfold shifted_freqs. rewrite length_tab. lia. }
  set (fr' := if dc then roll_tail_left (n / 2) fr else fr).
  assert (Lf' : length fr' = n) by (unfold fr'; destruct dc; [rewrite length_roll_tail_left|]; exact Lf).
  apply list_tab with (d := RtoC 0); [rewrite map_length, combine_length; lia|].
  intros j Hj.
  rewrite (nth_map' (fun p : C * R => fst p * cis (2 * PI * snd p * INR off)) _ (RtoC 0, 0%R))
    by (rewrite combine_length; lia).
  rewrite combine_nth by lia. cbn [fst snd].
  assert (Ey : nth j y (RtoC 0) = nth j x (RtoC 0)
     * cis (- (2 * PI * ((INR (bin j) - INR ((os * n) / 2)) / INR (os * n)) * INR off)))
    by (apply received; assumption).
  rewrite Ey, <- Cmult_assoc. f_equal. rewrite <- cis_add.
  assert (Efr : forall k, (k < n)%nat ->
    nth k fr 0%R = ((INR (pad_start n os + k) - INR ((os * n) / 2)) / INR (os * n))%R).
  { intros k Hk. unfold fr. rewrite nth_slice by lia. unfold shifted_freqs. rewrite nth_tab by lia. reflexivity. }
  assert (Hh : (n / 2 < n)%nat) by (apply Nat.div_lt; lia).
  unfold residual. destruct dc eqn:Edc; cbn [andb].
  - assert (Ef : nth j fr' 0%R = nth (came (n / 2) n j) fr 0%R).
    { unfold fr'. rewrite nth_roll_tail_left by lia. rewrite Lf. reflexivity. }
    rewrite Ef, Efr by (apply came_lt; lia). unfold bin. rewrite Edc.
    unfold came.
    destruct (Nat.ltb_spec j (n / 2)).
    + destruct (Nat.ltb_spec (pad_start n os + j) (os * n / 2)); [|lia].
      destruct (Nat.eqb_spec (S j) n); [lia|]. cbn [andb].
      rewrite <- cis_0. f_equal. ring.
    + destruct (Nat.ltb_spec (pad_start n os + j) (os * n / 2)); [lia|].
      destruct (Nat.ltb_spec (S j) n).
      * destruct (Nat.eqb_spec (S j) n); [lia|]. cbn [andb].
        destruct (Nat.ltb_spec (S (pad_start n os + j)) (os * n)); [|lia].
        rewrite <- cis_0. f_equal. rewrite Nat.add_succ_r. ring.
      * destruct (Nat.eqb_spec (S j) n); [|lia]. cbn [andb]. rewrite P3.
        destruct (Nat.ltb_spec (S (pad_start n os + j)) (os * n)).
        -- destruct (Nat.ltb_spec (pad_start n os + n) (os * n)); [|lia]. f_equal.
           replace (S (pad_start n os + j)) with (os * n / 2 + (n - n / 2))%nat by lia.
           rewrite plus_INR. unfold Rdiv. ring.
        -- destruct (Nat.ltb_spec (pad_start n os + n) (os * n)); [lia|].
           rewrite <- cis_0. f_equal. ring.
  - unfold fr'. rewrite Efr by lia. unfold bin. rewrite Edc.
    rewrite <- cis_0. f_equal. ring.
Qed.
End Ofdm.

(** *** OTFS *)
Lemma map_map_id {B D} (f : B -> D) (g : D -> B) l : (forall x, In x l -> g (f x) = x) -> map g (map f l) = l.
Proof.
  intro H. rewrite map_map. rewrite <- (map_id l) at 2. apply map_ext_in. exact H.
Qed.

Lemma ofdm_roundtrip dc n os g : (0 < n)%nat -> (0 < os)%nat -> Forall (fun r => length r = n) g ->
  ofdm_backward dc n os (ofdm_forward dc n os g) = g.
Proof.
  intros Hn Ho H. unfold ofdm_backward, ofdm_forward. apply map_map_id. intros x Hx.
  apply ofdm_word_roundtrip; [assumption|assumption|]. rewrite Forall_forall in H. apply H, Hx.
Qed.

(** Transforms along different axes commute. *)
Lemma nth_map_fft m g i : (i < length g)%nat -> nth i (map (fft m) g) [] = fft m (nth i g []).
Proof. intro H. apply nth_map'. exact H. Qed.

Lemma fft_rows_cols m1 m2 n g : Forall (fun r => length r = n) g ->
  map (fft m1) (fft_cols m2 n g) = fft_cols m2 n (map (fft m1) g).
Proof.
  intro H. apply nth_ext with (d := []) (d' := []).
  { rewrite map_length, !length_fft_cols, map_length. reflexivity. }
  intros k Hk. rewrite map_length, length_fft_cols in Hk.
  rewrite nth_map_fft by (rewrite length_fft_cols; exact Hk).
  unfold fft_cols. rewrite map_length, !nth_tab by exact Hk.
  unfold fft at 1. rewrite length_tab. apply tab_ext. intros j Hj.
  assert (W : forall i, (i < length g)%nat -> length (nth i g []) = n).
  { intros i Hi. rewrite Forall_forall in H. apply H, nth_In, Hi. }
  unfold fft_at.
  rewrite (csum_ext _ (fun l => RtoC (fft_scale m2 (length g)) *
     csum (fun i => at2 g i l * cis (- turn (length g) k i) * cis (- turn n j l)) (length g))).
  2: { intros l Hl. rewrite at0_tab by exact Hl. rewrite csum_scal_r. ring. }
  rewrite csum_scal.
  rewrite (csum_ext (fun i => at2 (map (fft m1) g) i j * cis (- turn (length g) k i))
    (fun i => RtoC (fft_scale m1 n) *
       csum (fun l => at2 g i l * cis (- turn (length g) k i) * cis (- turn n j l)) n)).
  2: { intros i Hi. unfold at2 at 1. rewrite nth_map_fft by exact Hi. unfold fft.
       rewrite (W i Hi), at0_tab by exact Hj. unfold fft_at.
       rewrite <- Cmult_assoc, <- csum_scal_r. f_equal. apply csum_ext. intros l Hl. unfold at2. ring. }
  rewrite csum_scal, csum_swap. ring.
Qed.

Lemma otfs_roundtrip dc n os g : (0 < n)%nat -> (0 < os)%nat -> Forall (fun r => length r = n) g ->
  otfs_backward dc n os (otfs_forward dc n os g) = g.
Proof.
  intros Hn Ho H. unfold otfs_backward, otfs_forward.
  rewrite ofdm_roundtrip; [|assumption|assumption|apply widths_fft_cols].
  assert (W : Forall (fun r => length r = n) (map (ifft Ortho) g)).
  { rewrite Forall_map. revert H. apply Forall_impl. intros r Hr. rewrite length_ifft. exact Hr. }
  rewrite fft_rows_cols by exact W.
  assert (E : map (fft Ortho) (map (ifft Ortho) g) = g) by (apply map_map_id; intros; apply fft_ifft).
  rewrite E. apply ifft_fft_cols. exact H.
Qed.

(** *** OCDM *)
Lemma dfnt_orthogonal n os a b : (0 < n)%nat -> (0 < os)%nat -> (a < n)%nat -> (b < n)%nat ->
  csum (fun k => dfnt n os b k * conj (dfnt n os a k)) (n * os)
  = if (a =? b)%nat then RtoC (INR os) else 0.
Proof.
  intros Hn Ho Ha Hb.
  assert (Nn : INR n <> 0%R) by (apply not_0_INR; lia).
  assert (No : INR os <> 0%R) by (apply not_0_INR; lia).
  assert (Hs : (sqrt (INR n) * sqrt (INR n) = INR n)%R) by (apply sqrt_sqrt, pos_INR).
  assert (Hq : sqrt (INR n) <> 0%R) by (apply Rgt_not_eq, sqrt_lt_R0, lt_0_INR; exact Hn).
  set (corr := if (n mod 2 =? 0)%nat then 0%R else (1 / 2)%R).
  set (c := RtoC (/ INR n) * cis (PI * (((INR b + corr) * (INR b + corr) - (INR a + corr) * (INR a + corr)) / INR n))).
  rewrite (csum_ext _ (fun k => c * (cis (turn (n * os) k a) * cis (- turn (n * os) k b)))).
  - rewrite csum_scal. rewrite roots_orthogonal by nia.
    destruct (Nat.eqb_spec a b) as [->|Hab].
    + unfold c. replace (PI * _)%R with 0%R by (unfold Rdiv; ring). rewrite cis_0, Cmult_1_r, <- RtoC_mult.
      f_equal. rewrite mult_INR. field. exact Nn.
    + ring.
  - intros k _. unfold dfnt. cbv zeta. fold corr. rewrite conj_mult, conj_R, conj_cis.
    unfold c.
    transitivity (RtoC (/ sqrt (INR n)) * RtoC (/ sqrt (INR n)) *
      (cis (PI * ((INR b + corr - INR k / INR os) * (INR b + corr - INR k / INR os) / INR n - 1 / 4)) *
       cis (- (PI * ((INR a + corr - INR k / INR os) * (INR a + corr - INR k / INR os) / INR n - 1 / 4))))); [ring|].
    rewrite <- RtoC_mult.
    replace (/ sqrt (INR n) * / sqrt (INR n))%R with (/ INR n)%R.
    2: { rewrite <- Hs at 1. field. exact Hq. }
    rewrite <- !Cmult_assoc. f_equal. rewrite <- !cis_add. f_equal.
    unfold turn. rewrite mult_INR. field. split; assumption.
Qed.

Lemma ocdm_word_roundtrip n os x : (0 < n)%nat -> (0 < os)%nat -> length x = n ->
  ocdm_backward_word n os (ocdm_forward_word n os x) = x.
Proof.
  intros Hn Ho Hx. symmetry. apply list_tab with (d := RtoC 0); [exact Hx|]. intros i Hi.
  assert (No : RtoC (INR os) <> 0).
  { intro E. apply RtoC_inj in E. revert E. apply not_0_INR. lia. }
  rewrite (csum_ext _ (fun k => csum (fun m => at0 x m * (dfnt n os m k * conj (dfnt n os i k))) n)).
  - rewrite csum_swap.
    rewrite (csum_ext _ (fun m => if (m =? i)%nat then at0 x m * RtoC (INR os) else 0)).
    + rewrite (csum_delta (fun m => at0 x m * RtoC (INR os))) by exact Hi. unfold at0. field. exact No.
    + intros m Hm. rewrite csum_scal, dfnt_orthogonal by assumption. rewrite (Nat.eqb_sym i m).
      destruct (m =? i)%nat; ring.
  - intros k Hk. unfold ocdm_forward_word. rewrite at0_tab by exact Hk. rewrite <- csum_scal_r.
    apply csum_ext. intros m _. ring.
Qed.
