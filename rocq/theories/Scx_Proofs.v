(** Proofs about pilots and Schmidl-Cox synchronization *)
From Coq Require Import List Reals Bool Arith ZArith Lia Lra Sorting.Sorted.
From Coq Require Import FunctionalExtensionality.
From Coquelicot Require Import Complex.
From Verif Require Import Base BaseLemmas Cplx Cplx_Proofs Ofdm_Model Ofdm_Proofs Sync_Model Sync_Proofs Scx_Model Scx_Spec.
Import ListNotations.
Local Open Scope nat_scope.

(** * Cache *)
Definition valid (dc : bool) (r : nat -> list C) (p : pilot) : Prop :=
  (forall w, carrier p = Some w -> suppress w = dc /\ pseudo_random w = r) /\
  (forall n o x, cached p = Some (n, o, x) -> fresh p (mkWave n dc r) o = Ok x).
Lemma fresh_same : forall p q w os, schmidl_cox p = schmidl_cox q -> given p = given q -> fresh p w os = fresh q w os.
Proof. intros p q w os A B. unfold fresh, pilot_symbols. rewrite A, B. reflexivity. Qed.
Lemma generate_valid : forall dc r p os, valid dc r p -> valid dc r (snd (generate p os)) /\ (forall w, carrier p = Some w -> fst (generate p os) = fresh p w os).
Proof.
  intros dc r p os [V W]. unfold generate. destruct (carrier p) as [w|] eqn:K; [|split; [split; cbn [snd]; [rewrite K; discriminate|exact W]|discriminate]].
  destruct (V w eq_refl) as [D R]. assert (Q : w = mkWave (subcarriers w) dc r) by (destruct w; cbn in *; subst; reflexivity).
  assert (M : forall x, fresh p w os = Ok x -> valid dc r (mkPilot (schmidl_cox p) (given p) (Some w) (Some (subcarriers w, os, x)))).
  { intros x F. split; [cbn; intros w' E; injection E as <-; auto|]. cbn [cached]. intros n o y E. injection E as <- <- <-. rewrite <- Q. rewrite <- F. apply fresh_same; reflexivity. }
  assert (P : valid dc r p) by (split; [rewrite K; exact V|exact W]).
  destruct (cached p) as [[[n o] x]|] eqn:H.
  - destruct ((n =? subcarriers w) && (o =? os)) eqn:T.
    + apply andb_prop in T. destruct T as [T1 T2]. apply Nat.eqb_eq in T1. apply Nat.eqb_eq in T2. subst n o. split; [exact P|]. intros w' E. injection E as <-. cbn [fst]. rewrite Q. symmetry. cbn [subcarriers]. apply W. reflexivity.
    + destruct (fresh p w os) as [y|e] eqn:F; cbn [fst snd]; (split; [auto|intros w' E; injection E as <-; auto]).
  - destruct (fresh p w os) as [y|e] eqn:F; cbn [fst snd]; (split; [auto|intros w' E; injection E as <-; auto]).
Qed.
Lemma run_valid : forall dc r l p, valid dc r p -> Forall (harmless dc r) l -> valid dc r (run p l).
Proof.
  intros dc r l. induction l as [|o l IH]; intros p V H; [exact V|]. inversion H as [|a b A B]; subst. cbn [run fold_left]. apply IH; [|exact B]. clear IH H B.
  destruct o as [e|w|os]; cbn [step harmless] in *.
  - destruct e as [v|]; [|congruence]. unfold set_elements. destruct (negb _); [exact V|]. destruct (_ <? _); [exact V|]. destruct V as [V _]. split; [exact V|discriminate].
  - destruct V as [V W]. split; [cbn [set_wave carrier]; intros v E; apply A; exact E|]. cbn [set_wave cached]. intros n o x E. rewrite <- (W n o x E). apply fresh_same; reflexivity.
  - apply generate_valid. exact V.
Qed.

(** * Transforms *)
Lemma cis_pi : forall k, cis (PI * INR k) = if Nat.even k then RtoC 1 else (- RtoC 1)%C.
Proof.
  assert (P : cis PI = (- RtoC 1)%C). { unfold cis. rewrite cos_PI, sin_PI. apply C_ext; cbn; ring. }
  intro k. induction k as [|k IH]; [cbn; rewrite Rmult_0_r; apply cis_0|].
  rewrite S_INR, Rmult_plus_distr_l, Rmult_1_r, cis_add, IH, P, Nat.even_succ, <- Nat.negb_even. destruct (Nat.even k); cbn [negb]; ring.
Qed.
(** The entry of a shifted spectrum in place [p] oscillates [p - h] times per symbol *)
Lemma ifft_shifted : forall y t, t < length y ->
  at0 (ifft Forward (ifftshift y)) t = csum (fun p => at0 y p * cis (2 * PI * (INR p - INR (length y / 2)) * INR t / INR (length y)))%C (length y).
Proof.
  intros y t T. set (m := length y) in *. set (h := m / 2). assert (Hh : h <= m) by (unfold h; apply Nat.div_le_upper_bound; lia).
  assert (M0 : INR m <> 0%R) by (apply not_0_INR; lia).
  assert (L : length (ifftshift y) = m) by (unfold ifftshift; rewrite length_roll_left; reflexivity).
  unfold at0 at 1, ifft. rewrite L, nth_tab by exact T. unfold ifft_at. cbn [ifft_scale]. rewrite Cmult_1_l.
  rewrite (csum_split _ (m - h) h m) by lia. rewrite (csum_split (fun p => at0 y p * _)%C h (m - h) m) by lia. rewrite Cplus_comm. f_equal; apply csum_ext; intros i I.
  - unfold at0, ifftshift. fold m h. rewrite nth_roll_left by (fold m; lia). fold m. destruct (Nat.ltb_spec (m - h + i) (m - h)); [lia|]. replace (m - h + i - (m - h)) with i by lia. f_equal.
    replace (turn m t (m - h + i)) with (2 * PI * (INR i - INR h) * INR t / INR m + 2 * PI * INR t)%R by (unfold turn; rewrite plus_INR, minus_INR by lia; field; exact M0).
    rewrite cis_add, cis_2PI_nat. ring.
  - unfold at0, ifftshift. fold m h. rewrite nth_roll_left by (fold m; lia). fold m. destruct (Nat.ltb_spec i (m - h)); [|lia]. f_equal. f_equal. unfold turn. rewrite plus_INR. field. exact M0.
Qed.
Lemma halves_of : forall y h (e : bool) t, length y = 2 * h -> t < h -> (forall p, p < 2 * h -> at0 y p <> RtoC 0 -> Nat.even (p + h) = e) ->
  at0 (ifft Forward (ifftshift y)) (h + t) = ((if e then RtoC 1 else - RtoC 1) * at0 (ifft Forward (ifftshift y)) t)%C.
Proof.
  intros y h e t L T P. assert (H2 : length y / 2 = h) by (rewrite L, Nat.mul_comm; apply Nat.div_mul; lia).
  rewrite !ifft_shifted by lia. rewrite H2, L, <- csum_scal. apply csum_ext. intros p I. destruct (Ceq_dec (at0 y p) (RtoC 0)) as [Z|Z]; [rewrite Z; ring|].
  assert (h0 : INR h <> 0%R) by (apply not_0_INR; lia).
  replace (2 * PI * (INR p - INR h) * INR (h + t) / INR (2 * h))%R with ((2 * PI * (INR p - INR h) * INR t / INR (2 * h) + PI * INR (p + h)) + - (2 * PI * INR h))%R
    by (rewrite mult_INR, !plus_INR; cbn [INR]; field; exact h0).
  rewrite !cis_add, cis_pi, (P p I Z), cis_neg_2PI_nat. destruct e; ring.
Qed.
Lemma nth_roll_tail : forall k (x : list C) q, k < length x -> q < length x -> at0 (roll_tail_right k x) q = if q <? k then at0 x q else if q =? k then at0 x (length x - 1) else at0 x (q - 1).
Proof.
  intros k x q K Q. unfold at0. destruct (Nat.ltb_spec q k) as [A|A].
  - rewrite <- (nth_roll_tail_right k x _ q) by lia. f_equal. unfold came. destruct (Nat.ltb_spec q k); lia.
  - destruct (Nat.eqb_spec q k) as [->|B].
    + rewrite <- (nth_roll_tail_right k x _ (length x - 1)) by lia. f_equal. unfold came. destruct (Nat.ltb_spec (length x - 1) k); [lia|]. destruct (Nat.ltb_spec (S (length x - 1)) (length x)); lia.
    + rewrite <- (nth_roll_tail_right k x _ (q - 1)) by lia. f_equal. unfold came. destruct (Nat.ltb_spec (q - 1) k); [lia|]. destruct (Nat.ltb_spec (S (q - 1)) (length x)); lia.
Qed.
Lemma nth_roll_head : forall k (x : list C) q, k <= length x -> q < length x -> at0 (roll_head_right k x) q = if q <? k then (if q =? 0 then at0 x (k - 1) else at0 x (q - 1)) else at0 x q.
Proof.
  intros k x q K Q. unfold at0, roll_head_right. assert (L : length (firstn k x) = k) by (rewrite firstn_length; lia).
  assert (L' : length (roll_right 1 (firstn k x)) = k) by (rewrite length_roll_right; exact L).
  destruct (Nat.ltb_spec q k) as [A|A].
  - rewrite app_nth1 by lia. rewrite rotate_roll, nth_rotate by lia. rewrite L. destruct (Nat.eqb_spec q 0) as [->|B].
    + cbn [Nat.ltb Nat.leb]. rewrite Nat.add_0_r. apply nth_firstn'. lia.
    + destruct (Nat.ltb_spec q 1); [lia|]. apply nth_firstn'. lia.
  - rewrite app_nth2 by lia. rewrite L', nth_skipn'. f_equal. lia.
Qed.
Lemma length_roll_head : forall k (x : list C), length (roll_head_right k x) = length x.
Proof. intros k x. unfold roll_head_right. rewrite app_length, length_roll_right, skipn_length, firstn_length. lia. Qed.
Lemma length_stuffed : forall n l, length (stuffed n l) = n.
Proof. intros n l. apply length_tab. Qed.
Lemma stuffed_odd : forall n l i, i < n -> Nat.even i = false -> at0 (stuffed n l) i = RtoC 0.
Proof. intros n l i I E. unfold at0, stuffed. rewrite nth_tab by exact I. rewrite E. reflexivity. Qed.
Lemma stuff_inv : forall n l x, stuff n l = Ok x -> exists k, x = stuffed n k.
Proof. intros n l x. unfold stuff. destruct (_ =? _); [|destruct (_ =? _); [|discriminate]]; intro E; injection E as <-; eexists; reflexivity. Qed.
Lemma padded0_nonzero : forall n os x p, 0 < n -> 0 < os -> length x = n -> p < os * n -> at0 (padded0 n os x) p <> RtoC 0 -> exists j, j < n /\ p = pad_start n os + j /\ at0 x j <> RtoC 0.
Proof.
  intros n os x p Hn Ho L P Z. destruct (pad_fits n os Hn Ho) as [F1 [F2 _]]. destruct (Nat.lt_ge_cases p (pad_start n os)) as [A|A].
  - exfalso. apply Z. unfold at0, padded0. rewrite app_nth1 by (rewrite repeat_length; exact A). apply nth_repeat'. exact A.
  - destruct (Nat.lt_ge_cases p (pad_start n os + n)) as [B|B].
    + exists (p - pad_start n os). split; [lia|]. split; [lia|]. intro E. apply Z. replace p with (pad_start n os + (p - pad_start n os)) by lia. unfold at0. rewrite nth_padded0 by lia. unfold at0 in E. rewrite E. unfold Cdiv. ring.
    + exfalso. apply Z. unfold at0, padded0. rewrite app_nth2 by (rewrite repeat_length; lia). rewrite repeat_length, app_nth2 by (unfold scaled; rewrite map_length; lia).
      unfold scaled. rewrite map_length, L. apply nth_repeat'. lia.
Qed.
Lemma even_add_twice : forall a h, Nat.even (a + 2 * h) = Nat.even a.
Proof. intros a h. rewrite Nat.even_add, Nat.even_mul. cbn [Nat.even orb]. destruct (Nat.even a); reflexivity. Qed.
Lemma parity_plain : forall n os x h, 0 < n -> 0 < os -> length x = n -> os * n = 2 * h -> (forall j, j < n -> at0 x j <> RtoC 0 -> Nat.even j = true) ->
  forall p, p < 2 * h -> at0 (padded false n os x) p <> RtoC 0 -> Nat.even (p + h) = Nat.even (n / 2).
Proof.
  intros n os x h Hn Ho L H2 X p P Z. destruct (pad_fits n os Hn Ho) as [_ [_ [F _]]]. assert (HH : os * n / 2 = h) by (rewrite H2, Nat.mul_comm; apply Nat.div_mul; lia).
  destruct (padded0_nonzero n os x p Hn Ho L) as [j [J [-> E]]]; [lia|exact Z|]. apply X in E; [|exact J].
  replace (pad_start n os + j + h) with (n / 2 + j + 2 * pad_start n os) by lia. rewrite even_add_twice, Nat.even_add, E. destruct (Nat.even (n / 2)); reflexivity.
Qed.
Lemma parity_suppressed : forall n os l h, 2 <= n -> 0 < os -> os * n = 2 * h -> Nat.even (n / 2) = true ->
  forall p, p < 2 * h -> at0 (padded true n os (roll_head_right (n / 2) (stuffed n l))) p <> RtoC 0 -> Nat.even (p + h) = false.
Proof.
  intros n os l h Hn Ho H2 E p P Z. set (x := roll_head_right (n / 2) (stuffed n l)) in *. assert (L : length x = n) by (unfold x; rewrite length_roll_head; apply length_stuffed).
  destruct (pad_fits n os ltac:(lia) Ho) as [F1 [F2 [F [F4 F5]]]]. assert (HH : os * n / 2 = h) by (rewrite H2, Nat.mul_comm; apply Nat.div_mul; lia).
  assert (N2 : n / 2 <= n) by (apply Nat.div_le_upper_bound; lia).
  assert (X : forall j, j < n -> at0 x j <> RtoC 0 -> Nat.even j = negb (j <? n / 2)).
  { intros j J. unfold x. rewrite nth_roll_head by (rewrite length_stuffed; lia). destruct (Nat.ltb_spec j (n / 2)) as [A|A].
    - destruct (Nat.eqb_spec j 0) as [->|B].
      + intro Y. exfalso. apply Y. apply stuffed_odd; [lia|]. replace (n / 2) with (S (n / 2 - 1)) in E by lia. rewrite Nat.even_succ in E. rewrite <- Nat.negb_odd, E. reflexivity.
      + intro Y. destruct (Nat.even (j - 1)) eqn:K; [|exfalso; apply Y; apply stuffed_odd; [lia|exact K]]. replace j with (S (j - 1)) by lia. rewrite Nat.even_succ, <- Nat.negb_even, K. reflexivity.
    - intro Y. destruct (Nat.even j) eqn:K; [reflexivity|]. exfalso. apply Y. apply stuffed_odd; assumption. }
  assert (Lp : length (padded0 n os x) = os * n) by (apply length_padded0; [lia|lia|exact L]).
  unfold padded in Z. rewrite nth_roll_tail in Z by lia. rewrite F4, HH in Z. destruct (Nat.ltb_spec p h) as [A|A].
  - destruct (padded0_nonzero n os x p ltac:(lia) Ho L) as [j [J [-> Y]]]; [lia|exact Z|]. apply X in Y; [|exact J]. destruct (Nat.ltb_spec j (n / 2)) as [B|B]; [|lia].
    replace (pad_start n os + j + h) with (n / 2 + j + 2 * pad_start n os) by lia. rewrite even_add_twice, Nat.even_add, Y, E. reflexivity.
  - destruct (Nat.eqb_spec p h) as [->|B].
    + exfalso. rewrite Lp in Z. destruct (padded0_nonzero n os x (os * n - 1) ltac:(lia) Ho L) as [j [J [Q Y]]]; [lia|exact Z|]. apply X in Y; [|exact J]. destruct (Nat.ltb_spec j (n / 2)) as [B|B]; [lia|]. cbn [negb] in Y.
      assert (D := Nat.div_mod n 2 ltac:(lia)). assert (D' := Nat.mod_upper_bound n 2 ltac:(lia)).
      assert (j = h + n / 2 - 1) by lia. assert (K : h <= n - n / 2) by lia.
      destruct (Nat.eq_dec os 1) as [->|O].
      * assert (JN : j = n - 1) by lia. assert (EN : Nat.even n = true) by (rewrite Nat.mul_1_l in H2; rewrite H2, Nat.even_mul; reflexivity).
        replace n with (S (n - 1)) in EN by lia. rewrite Nat.even_succ, <- Nat.negb_even in EN. rewrite JN in Y. rewrite Y in EN. discriminate.
      * assert (2 * n <= os * n) by (apply Nat.mul_le_mono_r; lia). lia.
    + destruct (padded0_nonzero n os x (p - 1) ltac:(lia) Ho L) as [j [J [Q Y]]]; [lia|exact Z|]. apply X in Y; [|exact J]. destruct (Nat.ltb_spec j (n / 2)) as [C|C]; [lia|]. cbn [negb] in Y.
      replace (p + h) with (S (n / 2 + j + 2 * pad_start n os)) by lia. rewrite Nat.even_succ, <- Nat.negb_even, even_add_twice, Nat.even_add, Y, E. reflexivity.
Qed.
Lemma forward_padded : forall dc n os x, ofdm_forward_word dc n os x = ifft Forward (ifftshift (padded dc n os x)).
Proof. intros. reflexivity. Qed.

(** * Synchronization *)
Definition rising (f : nat -> R) (k : nat) : Prop := forall i, i < k -> (f i <= f (S i))%R.
Lemma rising_le : forall f k, rising f k -> forall i j, i <= j -> j <= k -> (f i <= f j)%R.
Proof. intros f k R i j A. induction A as [|j A IH]; intro B; [lra|]. specialize (IH ltac:(lia)). specialize (R j ltac:(lia)). lra. Qed.
Lemma no_peak_before : forall f n k i, rising f k -> i < k -> k < n -> k = n - 1 \/ (f (k - 1)%nat < f k)%R -> peak_at f n i = [].
Proof.
  intros f n k i R I K X. unfold peak_at. destruct (Rlt_dec (f (i - 1)) (f i)) as [A|A]; [|reflexivity]. cbv zeta. set (j := ahead f i (S i) (n - 1 - S i)). destruct (Rlt_dec (f j) (f i)) as [B|B]; [|reflexivity]. exfalso.
  assert (J1 := ahead_ge f i (n - 1 - S i) (S i)). assert (J2 := ahead_le f i (n - 1 - S i) (S i)). fold j in J1, J2. destruct (Nat.le_gt_cases j k) as [C|C].
  - assert (D := rising_le f k R i j ltac:(lia) C). lra.
  - destruct X as [X|X]; [lia|]. assert (P := ahead_plateau f i (n - 1 - S i) (S i) k ltac:(lia) ltac:(fold j; lia)). assert (D := rising_le f k R i (k - 1) ltac:(lia) ltac:(lia)). lra.
Qed.
Lemma flat_map_single : forall (g : nat -> list nat) k l, NoDup l -> In k l -> (forall i, In i l -> i <> k -> g i = []) -> flat_map g l = g k.
Proof.
  intros g k l. induction l as [|x l IH]; intros N I H; [destruct I|]. inversion N as [|a b Na Nb]; subst. cbn [flat_map]. destruct (Nat.eq_dec x k) as [->|X].
  - assert (E : flat_map g l = []). { clear IH I. revert Na H. clear. induction l as [|y l IH]; intros Na H; [reflexivity|]. cbn [flat_map]. rewrite (H y); [|right; left; reflexivity|intro E; apply Na; left; exact E]. apply IH; [intro J; apply Na; right; exact J|]. intros i [->|J] D; [congruence|]. apply H; [right; right; exact J|exact D]. }
    rewrite E. apply app_nil_r.
  - rewrite (H x); [|left; reflexivity|exact X]. apply IH; [exact Nb|destruct I as [->|I]; [congruence|exact I]|]. intros i J D. apply H; [right; exact J|exact D].
Qed.
Lemma one_peak : forall f n k h d, rising f k -> 0 < k < n - 1 -> (f (k - 1)%nat < f k)%R -> (f (S k) < f k)%R -> (forall i, k <= i -> S i < n -> (f (S i) <= f i)%R) -> (h <= f k)%R -> 1 <= d -> find_peaks f n h d = Ok [k].
Proof.
  intros f n k h d R K A B F H D. unfold find_peaks. destruct (Nat.ltb_spec d 1); [lia|]. assert (L : local_maxima f n = [k]).
  { unfold local_maxima. rewrite (flat_map_single _ k).
    - unfold peak_at. destruct (Rlt_dec (f (k - 1)) (f k)) as [_|N]; [|contradiction]. cbv zeta. replace (ahead f k (S k) (n - 1 - S k)) with (S k).
      + destruct (Rlt_dec (f (S k)) (f k)) as [_|N]; [|contradiction]. f_equal. replace (k + S k - 1) with (k * 2) by lia. apply Nat.div_mul. lia.
      + destruct (n - 1 - S k); [reflexivity|]. cbn [ahead]. destruct (Req_EM_T (f (S k)) (f k)) as [E|E]; [lra|reflexivity].
    - apply seq_NoDup.
    - apply in_seq. lia.
    - intros i I N. apply in_seq in I. destruct (Nat.lt_ge_cases i k) as [C|C]; [apply (no_peak_before f n k); [exact R|exact C|lia|right; exact A]|].
      unfold peak_at. destruct (Rlt_dec (f (i - 1)) (f i)) as [P|P]; [|reflexivity]. specialize (F (i - 1) ltac:(lia) ltac:(lia)). replace (S (i - 1)) with i in F by lia. lra. }
  rewrite L. cbn [filter]. destruct (Rle_dec h (f k)) as [_|N]; [|contradiction]. cbn. rewrite Nat.eqb_refl. reflexivity.
Qed.
Lemma no_peak : forall f n h d, rising f (n - 1) -> 1 <= d -> find_peaks f n h d = Ok [].
Proof.
  intros f n h d R D. unfold find_peaks. destruct (Nat.ltb_spec d 1); [lia|]. assert (L : local_maxima f n = []).
  { unfold local_maxima. assert (G : forall l, (forall i, In i l -> i < n - 1) -> flat_map (peak_at f n) l = []).
    { intro l. induction l as [|i l IH]; intro H0; [reflexivity|]. cbn [flat_map]. assert (I := H0 i (or_introl eq_refl)). rewrite (no_peak_before f n (n - 1) i); [|exact R|exact I|lia|left; reflexivity]. apply IH. intros j J. apply H0. right. exact J. }
    apply G. intros i I. apply in_seq in I. lia. }
  rewrite L. reflexivity.
Qed.
Lemma peak_at_scale : forall f a n i, (0 < a)%R -> peak_at (fun k => a * f k)%R n i = peak_at f n i.
Proof.
  intros f a n i A. assert (H : forall room j, ahead (fun k => a * f k)%R i j room = ahead f i j room).
  { intro room. induction room as [|r IH]; intro j; [reflexivity|]. cbn [ahead]. destruct (Req_EM_T (a * f j) (a * f i)) as [E|E], (Req_EM_T (f j) (f i)) as [E'|E']; auto; exfalso.
    - apply E'. apply (Rmult_eq_reg_l a); lra.
    - apply E. rewrite E'. reflexivity. }
  assert (LT : forall x y, (a * x < a * y)%R <-> (x < y)%R) by (intros x y; split; intro Q; [apply (Rmult_lt_reg_l a); assumption|apply Rmult_lt_compat_l; assumption]).
  unfold peak_at. rewrite H. cbv zeta. destruct (Rlt_dec (a * f (i - 1)%nat) (a * f i)) as [P|P], (Rlt_dec (f (i - 1)) (f i)) as [P'|P']; try reflexivity; try (exfalso; rewrite LT in P; contradiction).
  set (j := ahead f i (S i) (n - 1 - S i)). destruct (Rlt_dec (a * f j) (a * f i)) as [Q|Q], (Rlt_dec (f j) (f i)) as [Q'|Q']; try reflexivity; exfalso; rewrite LT in Q; contradiction.
Qed.
Lemma insert_scale : forall f a p l, (0 < a)%R -> insert (fun k => a * f k)%R p l = insert f p l.
Proof.
  intros f a p l A. assert (LE : forall x y, (a * x <= a * y)%R <-> (x <= y)%R) by (intros x y; split; intro Q; [apply (Rmult_le_reg_l a); assumption|apply Rmult_le_compat_l; [lra|assumption]]).
  induction l as [|q r IH]; [reflexivity|]. cbn [insert]. rewrite IH. destruct (Rle_dec (a * f q) (a * f p)) as [P|P], (Rle_dec (f q) (f p)) as [P'|P']; try reflexivity; exfalso; rewrite LE in P; contradiction.
Qed.
Lemma find_peaks_scale : forall f a n h d, (0 < a)%R -> find_peaks (fun k => a * f k)%R n (a * h) d = find_peaks f n h d.
Proof.
  intros f a n h d A. assert (LE : forall x y, (a * x <= a * y)%R <-> (x <= y)%R) by (intros x y; split; intro Q; [apply (Rmult_le_reg_l a); assumption|apply Rmult_le_compat_l; [lra|assumption]]).
  unfold find_peaks. destruct (d <? 1); [reflexivity|]. cbv zeta. assert (L : local_maxima (fun k => a * f k)%R n = local_maxima f n) by (unfold local_maxima; apply flat_map_ext_in; intros i _; apply peak_at_scale; exact A).
  rewrite L. assert (T : forall l, filter (fun p => if Rle_dec (a * h) (a * f p) then true else false) l = filter (fun p => if Rle_dec h (f p) then true else false) l).
  { intro l. induction l as [|p l IH]; [reflexivity|]. cbn [filter]. rewrite IH. destruct (Rle_dec (a * h) (a * f p)) as [P|P], (Rle_dec h (f p)) as [P'|P']; try reflexivity; exfalso; rewrite LE in P; contradiction. }
  rewrite T. assert (B : forall l, by_height (fun k => a * f k)%R l = by_height f l).
  { intro l. unfold by_height. generalize (@nil nat). induction l as [|p l IH]; intro acc; [reflexivity|]. cbn [fold_left]. rewrite (insert_scale f a p acc A). apply IH. }
  rewrite B. reflexivity.
Qed.

(** Energy in the first half *)
Fixpoint rsum (g : nat -> R) (n : nat) : R := match n with O => 0%R | S k => (rsum g k + g k)%R end.
Definition energy (s : list C) (d half l : nat) : R := if (d <=? l) && (l <? d + half) then (Cmod (at0 s l) * Cmod (at0 s l))%R else 0%R.
Definition window (s : list C) (d half t : nat) : R := rsum (fun i => energy s d half (t + i)) half.
Lemma energy_nonneg : forall s d half l, (0 <= energy s d half l)%R.
Proof. intros. unfold energy. destruct (_ && _); [|lra]. apply Rmult_le_pos; apply Cmod_ge_0. Qed.
Lemma rsum_shift : forall g n, (rsum (fun i => g (S i)) n = rsum g n + g n - g 0%nat)%R.
Proof. intros g n. induction n as [|n IH]; cbn [rsum]; [lra|]. rewrite IH. lra. Qed.
Lemma rsum_nonneg : forall g n, (forall i, (0 <= g i)%R) -> (0 <= rsum g n)%R.
Proof. intros g n H. induction n as [|n IH]; cbn [rsum]; [lra|]. specialize (H n). lra. Qed.
Lemma rsum_ext : forall g h n, (forall i, g i = h i) -> rsum g n = rsum h n.
Proof. intros g h n H. induction n as [|n IH]; [reflexivity|]. cbn [rsum]. rewrite IH, H. reflexivity. Qed.
Lemma window_step : forall s d half t, (window s d half (S t) = window s d half t + energy s d half (t + half) - energy s d half t)%R.
Proof.
  intros. unfold window. rewrite (rsum_ext _ (fun i => (fun j => energy s d half (t + j)) (S i))) by (intro i; f_equal; lia). rewrite (rsum_shift (fun j => energy s d half (t + j)) half). cbv beta. rewrite Nat.add_0_r. reflexivity.
Qed.
Lemma conj_self : forall z, (conj z * z)%C = RtoC (Cmod z * Cmod z).
Proof.
  intro z. unfold Cmod. rewrite sqrt_sqrt; [|apply Rplus_le_le_0_compat; apply pow2_ge_0]. apply C_ext; destruct z as [a b]; cbn; ring.
Qed.
Lemma csum_RtoC : forall g n, csum (fun i => RtoC (g i)) n = RtoC (rsum g n).
Proof. intros g n. induction n as [|n IH]; [reflexivity|]. cbn [csum rsum]. rewrite IH, RtoC_plus. reflexivity. Qed.
Lemma halves_repeating : forall n d half u s t, repeating n d half u s -> halves s half t = (u * RtoC (window s d half t))%C.
Proof.
  intros n d half u s t [L [Z U]]. unfold halves, window. rewrite <- csum_RtoC, <- csum_scal. apply csum_ext. intros i I. unfold energy. destruct (Nat.leb_spec d (t + i)) as [A|A]; cbn [andb].
  - destruct (Nat.ltb_spec (t + i) (d + half)) as [B|B].
    + replace (t + half + i) with (d + half + (t + i - d)) by lia. rewrite U by lia. replace (d + (t + i - d)) with (t + i) by lia. rewrite <- conj_self. ring.
    + rewrite (Z (t + half + i)) by lia. ring.
  - rewrite (Z (t + i)) by lia. unfold conj. cbn [fst snd RtoC]. apply C_ext; cbn; ring.
Qed.
Lemma power_repeating : forall n d half u s t, repeating n d half u s -> Cmod u = 1%R -> Cmod (halves s half t) = window s d half t.
Proof.
  intros n d half u s t H U. rewrite (halves_repeating n d half u s t H), Cmod_mult, U, Cmod_R, Rabs_pos_eq; [lra|]. apply rsum_nonneg. intro i. apply energy_nonneg.
Qed.
Lemma window_pos : forall s d half, 0 < half -> at0 s d <> RtoC 0 -> (0 < window s d half d)%R.
Proof.
  intros s d half H Z. assert (St := window_step s d half d). assert (W : (0 <= window s d half (S d))%R) by (apply rsum_nonneg; intro; apply energy_nonneg).
  assert (E0 : (energy s d half (d + half) = 0)%R) by (unfold energy; destruct (Nat.ltb_spec (d + half) (d + half)); [lia|]; rewrite andb_false_r; reflexivity).
  assert (E1 : (0 < energy s d half d)%R). { unfold energy. rewrite Nat.leb_refl. destruct (Nat.ltb_spec d (d + half)); [|lia]. cbn [andb]. apply Cmod_gt_0 in Z. apply Rmult_lt_0_compat; exact Z. }
  lra.
Qed.
Definition regular (n d half : nat) (s : list C) : Prop := exists u, Cmod u = 1%R /\ repeating n d half u s.
Lemma sum_le : forall (streams : list (list C)) f g, (forall s, In s streams -> (f s <= g s)%R) -> (fold_right Rplus 0 (map f streams) <= fold_right Rplus 0 (map g streams))%R.
Proof. intros streams f g H. induction streams as [|s r IH]; cbn [map fold_right]; [lra|]. assert (A := H s (or_introl eq_refl)). specialize (IH (fun x X => H x (or_intror X))). lra. Qed.
Lemma sum_lt : forall (streams : list (list C)) f g, (forall s, In s streams -> (f s <= g s)%R) -> (exists s, In s streams /\ (f s < g s)%R) -> (fold_right Rplus 0 (map f streams) < fold_right Rplus 0 (map g streams))%R.
Proof.
  intros streams f g H [s [I Sl]]. induction streams as [|x r IH]; [destruct I|]. cbn [map fold_right]. assert (A := H x (or_introl eq_refl)). destruct I as [->|I].
  - assert (B := sum_le r f g (fun y Y => H y (or_intror Y))). lra.
  - specialize (IH (fun y Y => H y (or_intror Y)) I). lra.
Qed.
Section Regular.
Variables (n d half : nat) (streams : list (list C)).
Hypothesis (Hh : 0 < half) (Hr : forall s, In s streams -> regular n d half s).
Lemma power_step : forall s t, In s streams -> Cmod (halves s half (S t)) = (Cmod (halves s half t) + energy s d half (t + half) - energy s d half t)%R.
Proof. intros s t I. destruct (Hr s I) as [u [U R]]. rewrite !(power_repeating n d half u s _ R U). apply window_step. Qed.
Lemma energy_out : forall s l, l < d \/ d + half <= l -> energy s d half l = 0%R.
Proof. intros s l H. unfold energy. destruct (Nat.leb_spec d l); cbn [andb]; [|reflexivity]. destruct (Nat.ltb_spec l (d + half)); [lia|reflexivity]. Qed.
Lemma energy_in : forall s l, d <= l < d + half -> at0 s l <> RtoC 0 -> (0 < energy s d half l)%R.
Proof. intros s l H Z. unfold energy. destruct (Nat.leb_spec d l); cbn [andb]; [|lia]. destruct (Nat.ltb_spec l (d + half)); [|lia]. apply Cmod_gt_0 in Z. apply Rmult_lt_0_compat; exact Z. Qed.
Lemma powers_nonneg : forall k, (0 <= powers streams half k)%R.
Proof. intro k. destruct k as [|t]; cbn [powers]; [lra|]. induction streams as [|s r IH]; cbn [map fold_right]; [lra|]. assert (H := Cmod_ge_0 (halves s half t)). specialize (IH (fun x X => Hr x (or_intror X))). lra. Qed.
Lemma powers_rise : rising (powers streams half) (S d).
Proof.
  intros i I. destruct i as [|t]; [apply powers_nonneg|]. cbn [powers]. apply sum_le. intros s Si. rewrite (power_step s t Si), (energy_out s t) by lia. assert (H := energy_nonneg s d half (t + half)). lra.
Qed.
Lemma powers_fall : forall i, S d <= i -> (powers streams half (S i) <= powers streams half i)%R.
Proof.
  intros i I. destruct i as [|t]; [lia|]. cbn [powers]. apply sum_le. intros s Si. rewrite (power_step s t Si), (energy_out s (t + half)) by lia. assert (H := energy_nonneg s d half t). lra.
Qed.
Hypothesis (First : exists s, In s streams /\ at0 s d <> RtoC 0) (Last : exists s, In s streams /\ at0 s (d + half - 1) <> RtoC 0).
Lemma powers_before : (powers streams half d < powers streams half (S d))%R.
Proof.
  destruct d as [|t] eqn:D.
  - cbn [powers]. assert (P : (fold_right Rplus 0 (map (fun _ : list C => 0) streams) < fold_right Rplus 0 (map (fun s => Cmod (halves s half 0)) streams))%R).
    { apply sum_lt; [intros; apply Cmod_ge_0|]. destruct First as [s [I Z]]. exists s. split; [exact I|]. destruct (Hr s I) as [u [U R]]. rewrite (power_repeating n 0 half u s _ R U). apply window_pos; assumption. }
    assert (Q : (fold_right Rplus 0 (map (fun _ : list C => 0) streams) = 0)%R). { clear. induction streams as [|s r IH]; cbn [map fold_right]; [reflexivity|]. rewrite IH. lra. } lra.
  - rewrite <- D in *. replace d with (S t) at 1 by exact (eq_sym D). cbn [powers]. rewrite D. apply sum_lt.
    + intros s Si. rewrite (power_step s t Si), (energy_out s t) by lia. assert (H := energy_nonneg s d half (t + half)). lra.
    + destruct Last as [s [I Z]]. exists s. split; [exact I|]. rewrite (power_step s t I), (energy_out s t) by lia. replace (t + half) with (d + half - 1) by lia. assert (H := energy_in s (d + half - 1) ltac:(lia) Z). lra.
Qed.
Lemma powers_after : (powers streams half (S (S d)) < powers streams half (S d))%R.
Proof.
  cbn [powers]. apply sum_lt.
  - intros s Si. rewrite (power_step s d Si), (energy_out s (d + half)) by lia. assert (H := energy_nonneg s d half d). lra.
  - destruct First as [s [I Z]]. exists s. split; [exact I|]. rewrite (power_step s d I), (energy_out s (d + half)) by lia. assert (H := energy_in s d ltac:(lia) Z). lra.
Qed.
Lemma powers_max : forall m, S d <= m -> maximum (powers streams half) m = powers streams half (S d).
Proof.
  intros m M. apply maximum_unique; [exact M|]. intros j J. destruct (Nat.le_gt_cases j (S d)) as [A|A]; [apply (rising_le _ (S d)); [apply powers_rise|exact A|lia]|].
  clear M J. induction A as [|j A IH]; [apply powers_fall; lia|]. eapply Rle_trans; [apply powers_fall; lia|exact IH].
Qed.
End Regular.

(** Turned and amplified signals *)
Lemma at0_tab : forall n f t, (forall i, n <= i -> f i = RtoC 0) -> at0 (tab n f) t = f t.
Proof. intros n f t H. unfold at0. destruct (Nat.lt_ge_cases t n) as [A|A]; [apply nth_tab; exact A|]. rewrite nth_overflow by (rewrite length_tab; exact A). symmetry. apply H. exact A. Qed.
Lemma at0_shifted : forall w s t, at0 (shifted w s) t = (at0 s t * cis (w * INR t))%C.
Proof. intros w s t. unfold shifted. rewrite at0_tab; [reflexivity|]. intros i I. rewrite (at0_out s i I). ring. Qed.
Lemma cmod_cis : forall a, Cmod (cis a) = 1%R.
Proof. intro a. unfold Cmod, cis. cbn [fst snd]. replace (cos a ^ 2 + sin a ^ 2)%R with 1%R by (assert (H := sin2_cos2 a); unfold Rsqr in H; lra). apply sqrt_1. Qed.
Lemma halves_shifted : forall w s half d, halves (shifted w s) half d = (cis (w * INR half) * halves s half d)%C.
Proof.
  intros w s half d. unfold halves. rewrite <- csum_scal. apply csum_ext. intros i _. rewrite !at0_shifted, conj_mult, conj_cis.
  replace (cis (w * INR (d + half + i))) with (cis (w * INR (d + i)) * cis (w * INR half))%C by (rewrite <- cis_add; f_equal; rewrite !plus_INR; ring).
  assert (E := cis_opp (w * INR (d + i))). transitivity ((cis (w * INR (d + i)) * cis (- (w * INR (d + i)))) * (cis (w * INR half) * (conj (at0 s (d + i)) * at0 s (d + half + i))))%C; [ring|]. rewrite E. ring.
Qed.
Lemma halves_amplified : forall g s half d, halves (map (Cmult g) s) half d = (RtoC (Cmod g * Cmod g) * halves s half d)%C.
Proof. intros g s half d. unfold halves. rewrite <- csum_scal. apply csum_ext. intros i _. rewrite !at0_scaled, conj_mult, <- conj_self. ring. Qed.
