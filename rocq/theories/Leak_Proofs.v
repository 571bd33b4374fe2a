From Coq Require Import List Arith ZArith Lia Reals Lra Bool.
From Coquelicot Require Import Complex.
From Verif Require Import Base BaseLemmas Cplx Cplx_Proofs Iso_Model Corr_Model Corr_Spec Corr_Proofs Leak_Model Leak_Spec.
Import ListNotations.
Local Open Scope nat_scope.

(** ** Sums over pairs of ports *)
Definition lsum {A} (f : A -> C) (l : list A) : C := fold_right (fun x acc => (f x + acc)%C) (RtoC 0) l.
Lemma lsum_app : forall {A} (f : A -> C) a b, lsum f (a ++ b) = (lsum f a + lsum f b)%C.
Proof. intros A f a b. induction a as [|x t IH]; cbn [lsum fold_right app]; [unfold lsum; cbn; ring|]. fold (lsum f (t ++ b)). rewrite IH. unfold lsum. cbn [fold_right]. ring. Qed.
Lemma lsum_map_seq : forall (f : nat -> C) n, lsum f (seq 0 n) = csum f n.
Proof. intros f n. induction n as [|n IH]; [reflexivity|]. rewrite seq_S, lsum_app, IH. cbn [lsum fold_right csum Nat.add]. ring. Qed.
Lemma lsum_map : forall {A B} (g : A -> B) (f : B -> C) l, lsum f (map g l) = lsum (fun x => f (g x)) l.
Proof. intros A B g f l. induction l as [|x t IH]; [reflexivity|]. cbn [map lsum fold_right]. fold (lsum f (map g t)). rewrite IH. reflexivity. Qed.
Lemma lsum_ext : forall {A} (f g : A -> C) l, (forall x, In x l -> f x = g x) -> lsum f l = lsum g l.
Proof. intros A f g l. induction l as [|x t IH]; intro H; [reflexivity|]. cbn [lsum fold_right]. fold (lsum f t). fold (lsum g t). rewrite IH, H by (try intros; try apply H; cbn; auto). reflexivity. Qed.
Lemma lsum_0 : forall {A} (l : list A), lsum (fun _ => RtoC 0) l = RtoC 0.
Proof. intros A l. induction l as [|x t IH]; [reflexivity|]. cbn [lsum fold_right]. fold (lsum (fun _ : A => RtoC 0) t). rewrite IH. ring. Qed.
Lemma lsum_pairs : forall rows cols (d : nat * nat -> C) i, lsum (fun mk => if i =? fst mk then d mk else RtoC 0) (pairs rows cols) = if i <? rows then csum (fun k => d (i, k)) cols else RtoC 0.
Proof.
  intros rows cols d i. unfold pairs. induction rows as [|r IH]; [reflexivity|]. rewrite seq_S, flat_map_app, lsum_app, IH. cbn [Nat.add flat_map]. rewrite app_nil_r, lsum_map. cbn [fst].
  destruct (Nat.eqb_spec i r) as [->|N].
  - rewrite lsum_map_seq. destruct (Nat.ltb_spec r r); [lia|]. destruct (Nat.ltb_spec r (S r)); [|lia]. ring.
  - rewrite lsum_0. destruct (Nat.ltb_spec i r); destruct (Nat.ltb_spec i (S r)); try lia; ring.
Qed.

Lemma remove_pairs_ok : forall r shift tx n (d : nat * nat -> nat -> C) l y,
  (forall m k y, In (m, k) l -> l_cols r <=? k = false /\ exists row, subtract shift (leak_length (l_taps r) (samples tx)) (convolve_at (l_taps r) (samples tx) (l_e r m k) (at_ tx k)) n (y m) = Ok row /\ forall j, row j = (y m j - d (m, k) j)%C) ->
  exists y', remove_pairs r shift tx n l y = Ok y' /\ forall i j, y' i j = (y i j - lsum (fun mk => if i =? fst mk then d mk j else RtoC 0) l)%C.
Proof.
  intros r shift tx n d l. induction l as [|[m k] t IH]; intros y H.
  - exists y. split; [reflexivity|]. intros i j. unfold lsum. cbn. ring.
  - cbn [remove_pairs remove_pair]. destruct (H m k y (or_introl eq_refl)) as (K & row & E & V). rewrite K, E. cbn [bind].
    destruct (IH (fun i => if i =? m then row else y i)) as (y' & E' & V'). { intros m' k' y0 I. apply H. right. exact I. }
    exists y'. split; [exact E'|]. intros i j. rewrite V'. cbn [lsum fold_right fst]. fold (lsum (fun mk => if i =? fst mk then d mk j else RtoC 0) t).
    destruct (Nat.eqb_spec i m) as [->|N]; [rewrite V|]; ring.
Qed.

Lemma convolve_end : forall taps n h x j, leak_length taps n <= j -> 1 <= n -> convolve_at taps n h x j = RtoC 0.
Proof.
  intros taps n h x j H Hn. unfold convolve_at. transitivity (csum (fun _ => RtoC 0) taps); [|apply csum_0]. apply csum_ext. intros i Hi. unfold leak_length in H. destruct (Nat.eqb_spec taps 0); [lia|].
  destruct (Nat.leb_spec i j); [|reflexivity]. destruct (Nat.ltb_spec (j - i) n); [lia|reflexivity].
Qed.
Lemma slice_stop_pos : forall n e, (0 <= e)%Z -> slice_stop n e = Nat.min (Z.to_nat e) n.
Proof. intros n e H. unfold slice_stop. destruct (Z.ltb_spec e 0); [lia|reflexivity]. Qed.
Lemma subtract_late : forall s len p n y, s <= n -> exists row, subtract (Z.of_nat s) len p n y = Ok row /\ forall j, row j = (y j - (if (s <=? j) && (j <? Nat.min (s + len) n) then p (j - s)%nat else RtoC 0))%C.
Proof.
  intros s len p n y H. unfold subtract. destruct (Z.leb_spec 0 (Z.of_nat s)); [|lia]. rewrite Nat2Z.id.
  assert (E : slice_stop len (Z.min (Z.of_nat n - Z.of_nat s) (Z.of_nat len)) = Nat.min (s + len) n - Nat.min s n). { rewrite slice_stop_pos by lia. lia. }
  rewrite E, Nat.eqb_refl. cbn [orb]. eexists. split; [reflexivity|]. intro j. cbv beta. destruct ((s <=? j) && _); ring.
Qed.
Lemma subtract_early : forall k len p n y, 1 <= k -> k <= Nat.min n len -> exists row, subtract (- Z.of_nat k) len p n y = Ok row /\ forall j, row j = (y j - (if j <? Nat.min n len - k then p (k + j)%nat else RtoC 0))%C.
Proof.
  intros k len p n y K H. unfold subtract. destruct (Z.leb_spec 0 (- Z.of_nat k)); [lia|]. rewrite Z.opp_involutive, Nat2Z.id.
  assert (E : slice_stop n (Z.min (Z.of_nat len + - Z.of_nat k) (Z.of_nat n + - Z.of_nat k)) = Nat.min n len - k). { rewrite slice_stop_pos by lia. lia. }
  rewrite E, Nat.eqb_refl. eexists. split; [reflexivity|]. intro j. cbv beta. destruct (j <? _); ring.
Qed.

Lemma leaks_csum : forall taps n h x first last m j, leaks taps n h x first last m j = csum (fun q => convolve_at taps n (h m (first + q)) (x (first + q)) j) (last - first).
Proof. reflexivity. Qed.
Lemma leaks_split : forall taps n h x a b c m j, a <= b -> b <= c -> leaks taps n h x a c m j = (leaks taps n h x a b m j + leaks taps n h x b c m j)%C.
Proof.
  intros taps n h x a b c m j H1 H2. rewrite !leaks_csum. replace (c - a) with ((b - a) + (c - b)) by lia. rewrite csum_app. f_equal. apply csum_ext. intros i Hi. replace (a + (b - a + i)) with (b + i) by lia. reflexivity.
Qed.

(** What remove_leakage computes when the leakage arrives within the received samples *)
Lemma removed : forall c tx rx s, rate tx = rate rx -> carrier tx = carrier rx -> 1 <= samples tx -> Nat.min (streams tx) (l_rows (leakage_response c)) <= l_cols (leakage_response c) ->
  nearest ((model_delay c - (delay tx + delay rx)) * rate rx) (Z.of_nat s) -> s <= samples rx ->
  exists out, remove_leakage c tx rx = Ok out /\ same_header out rx /\
    forall i j, i < streams rx -> j < samples rx -> at_ out i j = (at_ rx i j - if i <? l_rows (leakage_response c)
      then leaks_later s (l_taps (leakage_response c)) (samples tx) (l_e (leakage_response c)) (at_ tx) 0 (Nat.min (streams tx) (l_rows (leakage_response c))) i j else RtoC 0)%C.
Proof.
  intros c tx rx s HR HC HN HP HS HL. unfold remove_leakage. destruct (Req_EM_T (rate tx) (rate rx)); [|contradiction]. destruct (Req_EM_T (carrier tx) (carrier rx)); [|contradiction].
  destruct (Nat.ltb_spec (samples tx) 1); [lia|]. set (r := leakage_response c) in *.
  assert (K : round_even ((model_delay c - (delay tx + delay rx)) * rate rx) = Z.of_nat s) by (eapply nearest_unique; [apply round_even_nearest|exact HS]). rewrite K.
  set (d := fun (mk : nat * nat) (j : nat) => if (s <=? j) && (j <? Nat.min (s + leak_length (l_taps r) (samples tx)) (samples rx)) then convolve_at (l_taps r) (samples tx) (l_e r (fst mk) (snd mk)) (at_ tx (snd mk)) (j - s) else RtoC 0).
  destruct (remove_pairs_ok r (Z.of_nat s) tx (samples rx) d (pairs (Nat.min (streams rx) (l_rows r)) (Nat.min (streams tx) (l_rows r))) (at_ rx)) as (y' & -> & V).
  { intros m k y I. unfold pairs in I. apply in_flat_map in I as (m' & _ & I). apply in_map_iff in I as (k' & [= <- <-] & I). apply in_seq in I. split; [apply Nat.leb_gt; lia|].
    destruct (subtract_late s (leak_length (l_taps r) (samples tx)) (convolve_at (l_taps r) (samples tx) (l_e r m' k') (at_ tx k')) (samples rx) (y m') HL) as (row & E & W). exists row. split; [exact E|]. intro j. rewrite W. reflexivity. }
  cbn [bind]. eexists. split; [reflexivity|]. split; [repeat split|]. cbn [at_]. intros i j Hi Hj. rewrite V. f_equal. f_equal. rewrite (lsum_pairs _ _ (fun mk => d mk j)).
  destruct (Nat.ltb_spec i (Nat.min (streams rx) (l_rows r))); destruct (Nat.ltb_spec i (l_rows r)); try lia; [|reflexivity]. unfold leaks_later, d. cbn [fst snd]. destruct (Nat.leb_spec s j) as [Q|Q]; cbn [andb].
  - rewrite leaks_csum. rewrite Nat.sub_0_r. apply csum_ext. intros k Hk. cbn [Nat.add]. destruct (Nat.ltb_spec j (Nat.min (s + leak_length (l_taps r) (samples tx)) (samples rx))); [reflexivity|]. symmetry. apply convolve_end; lia.
  - apply csum_0.
Qed.

(** ** Probing sequences *)
Lemma cis_period : forall a k, cis (a + 2 * PI * INR k) = cis a.
Proof. intros a k. rewrite cis_add, cis_2PI_nat. ring. Qed.
Lemma cis_period_neg : forall a k, cis (a - 2 * PI * INR k) = cis a.
Proof. intros a k. unfold Rminus. rewrite cis_add, cis_neg_2PI_nat. ring. Qed.
Definition gauss (n f i : nat) : C := cis (- (PI * INR (i * (i + n mod 2 + 2 + 2 * f)) / INR n)).
Lemma gauss_zc : forall n f i, 0 < n -> gauss n f i = (zadoff_chu n 0 i * cis (- turn n f i))%C.
Proof.
  intros n f i Hn. unfold gauss, zadoff_chu, turn. rewrite <- cis_add. f_equal. assert (N : (INR n <> 0)%R) by (apply not_0_INR; lia).
  rewrite !mult_INR, !plus_INR, mult_INR. cbn [INR]. field. exact N.
Qed.
Lemma gauss_shift : forall n f i, 0 < n -> gauss n f (S i) = (cis (- (PI * INR (n mod 2 + 3 + 2 * f) / INR n)) * gauss n (S f) i)%C.
Proof.
  intros n f i Hn. unfold gauss. rewrite <- cis_add. f_equal. assert (N : (INR n <> 0)%R) by (apply not_0_INR; lia).
  rewrite !mult_INR, !plus_INR, !mult_INR, !S_INR. cbn [INR]. field. exact N.
Qed.
Lemma gauss_period : forall n f, 0 < n -> gauss n f n = gauss n f 0.
Proof.
  intros n f Hn. unfold gauss. assert (N : (INR n <> 0)%R) by (apply not_0_INR; lia). assert (D : (n + n mod 2) = 2 * (n / 2 + n mod 2)) by (pose proof (Nat.div_mod n 2); lia).
  replace (n * (n + n mod 2 + 2 + 2 * f)) with (n * (2 * (n / 2 + n mod 2 + 1 + f))) by (rewrite D; lia). rewrite mult_INR, (mult_INR 2). cbn [Nat.mul]. replace (INR 0) with 0%R by reflexivity.
  replace (- (PI * (INR n * (INR 2 * INR (n / 2 + n mod 2 + 1 + f))) / INR n))%R with (- (2 * PI * INR (n / 2 + n mod 2 + 1 + f)))%R by (cbn [INR]; field; exact N).
  rewrite cis_neg_2PI_nat. replace (- (PI * 0 / INR n))%R with 0%R by (field; exact N). rewrite cis_0. reflexivity.
Qed.
Lemma csum_rotate1 : forall (u : nat -> C) n, u n = u 0 -> csum (fun i => u (S i)) n = csum u n.
Proof. intros u n H. pose proof (csum_S_l u n) as E. cbn [csum] in E. rewrite H in E. assert (G : (csum u n = csum (fun i => u (S i)) n)%C). { replace (csum u n) with (csum u n + u 0%nat - u 0%nat)%C by ring. rewrite E. ring. } symmetry. exact G. Qed.
Lemma gauss_next : forall n f, 0 < n -> csum (gauss n f) n = (cis (- (PI * INR (n mod 2 + 3 + 2 * f) / INR n)) * csum (gauss n (S f)) n)%C.
Proof.
  intros n f Hn. rewrite <- (csum_rotate1 (gauss n f) n (gauss_period n f Hn)). rewrite <- csum_scal. apply csum_ext. intros i _. apply gauss_shift. exact Hn.
Qed.
Lemma cis_neq_0 : forall a, cis a <> RtoC 0.
Proof. intros a H. pose proof (cis_opp a) as E. rewrite H in E. assert (F : (RtoC 0 * cis (- a) = RtoC 0)%C) by ring. rewrite F in E. injection E as E. lra. Qed.
Lemma gauss_nonzero : forall n f, 0 < n -> csum (gauss n f) n <> RtoC 0.
Proof.
  intros n f Hn Z. assert (UP : forall q, csum (gauss n (f + q)) n = RtoC 0).
  { induction q as [|q IH]; [rewrite Nat.add_0_r; exact Z|]. rewrite Nat.add_succ_r. pose proof (gauss_next n (f + q) Hn) as E. rewrite IH in E.
    destruct (Ceq_dec (csum (gauss n (S (f + q))) n) (RtoC 0)) as [D|D]; [exact D|]. exfalso. symmetry in E. revert E. apply Cmult_neq_0; [apply cis_neq_0|exact D]. }
  assert (PER : forall g, csum (gauss n (g + f * n)) n = csum (gauss n g) n).
  { intro g. apply csum_ext. intros i _. rewrite !gauss_zc by exact Hn. f_equal. unfold turn. assert (N : (INR n <> 0)%R) by (apply not_0_INR; lia).
    replace (- (2 * PI * INR (g + f * n) * INR i / INR n))%R with (- (2 * PI * INR g * INR i / INR n) - 2 * PI * INR (f * i))%R.
    - apply cis_period_neg.
    - rewrite plus_INR, !mult_INR. field. exact N. }
  assert (ALL : forall g, csum (gauss n g) n = RtoC 0). { intro g. rewrite <- PER. replace (g + f * n) with (f + (g + f * n - f)) by nia. apply UP. }
  pose proof (csum_ifft_fft (zadoff_chu n 0) n 0 Hn) as E.
  assert (E2 : csum (fun i => csum (fun j => zadoff_chu n 0 j * cis (- turn n i j)) n * cis (turn n 0 i))%C n = RtoC 0).
  { transitivity (csum (fun _ => RtoC 0) n); [|apply csum_0]. apply csum_ext. intros i _. rewrite (csum_ext _ (gauss n i)) by (intros j _; symmetry; apply gauss_zc; exact Hn). rewrite ALL. ring. }
  assert (F : (RtoC (INR n) * zadoff_chu n 0 0 = RtoC 0)%C) by (rewrite <- E; exact E2). revert F. apply Cmult_neq_0; [apply RtoC_neq; apply not_0_INR; lia|]. apply cis_neq_0.
Qed.

Lemma probing_nonzero : forall n f, 0 < n -> probing_frequency n 0 f <> RtoC 0.
Proof.
  intros n f Hn. unfold probing_frequency, fft_at. rewrite (csum_ext _ (gauss n f)) by (intros j _; symmetry; apply gauss_zc; exact Hn).
  apply Cmult_neq_0; [|apply gauss_nonzero; exact Hn]. apply RtoC_neq. unfold fft_scale. apply Rinv_neq_0_compat. apply Rgt_not_eq. apply sqrt_lt_R0. apply lt_0_INR. exact Hn.
Qed.

(** ** The received spectrum *)
Lemma csum_rotate : forall (g : nat -> C) n a, a <= n -> csum (fun t => g ((n + t - a) mod n)) n = csum g n.
Proof.
  intros g n a H. assert (X : forall (u : nat -> C) b c, n = b + c -> csum u n = (csum u b + csum (fun i => u (b + i)%nat) c)%C) by (intros u b c ->; apply csum_app).
  rewrite (X _ a (n - a)) by lia. rewrite (X g (n - a) a) by lia. rewrite Cplus_comm. f_equal; apply csum_ext; intros i Hi; f_equal.
  - replace (n + (a + i) - a) with (i + 1 * n) by lia. rewrite Nat.mod_add by lia. apply Nat.mod_small. lia.
  - replace (n + i - a) with (n - a + i) by lia. apply Nat.mod_small. lia.
Qed.
Lemma cis_turn_mod : forall n f i, 0 < n -> cis (- turn n f (i mod n)) = cis (- turn n f i).
Proof.
  intros n f i Hn. assert (N : (INR n <> 0)%R) by (apply not_0_INR; lia). rewrite (Nat.div_mod i n) at 2 by lia. unfold turn.
  replace (- (2 * PI * INR f * INR (n * (i / n) + i mod n) / INR n))%R with (- (2 * PI * INR f * INR (i mod n) / INR n) - 2 * PI * INR (f * (i / n)))%R.
  - symmetry. apply cis_period_neg.
  - rewrite plus_INR, !mult_INR. field. exact N.
Qed.
Lemma probed_leak : forall taps tx n h p m k t, 0 < n -> taps <= n -> k < tx -> t < n ->
  probed (leaking_hardware taps tx (3 * n) h) n p m k t = csum (fun a => h m k a * zadoff_chu n p ((n + t - a) mod n))%C taps.
Proof.
  intros taps tx n h p m k t Hn HT Hk Ht. unfold probed, leaking_hardware. rewrite leaks_csum, Nat.sub_0_r. cbn [Nat.add].
  rewrite (csum_ext _ (fun q => if Nat.eqb q k then convolve_at taps (3 * n) (h m q) (probe n p k q) (n + t) else RtoC 0)).
  - rewrite (csum_delta (fun q => convolve_at taps (3 * n) (h m q) (probe n p k q) (n + t))) by exact Hk. unfold convolve_at. apply csum_ext. intros a Ha.
    destruct (Nat.leb_spec a (n + t)); [|lia]. destruct (Nat.ltb_spec (n + t - a) (3 * n)); [|lia]. cbn [andb]. unfold probe. rewrite Nat.eqb_refl. reflexivity.
  - intros q _. destruct (Nat.eqb_spec q k) as [->|Q]; [reflexivity|]. unfold convolve_at. transitivity (csum (fun _ => RtoC 0) taps); [|apply csum_0]. apply csum_ext. intros a _. unfold probe. destruct (Nat.eqb_spec q k); [contradiction|]. destruct (_ && _); ring.
Qed.
Definition padded (taps : nat) (h : nat -> C) (t : nat) : C := if t <? taps then h t else RtoC 0.
Lemma received_leak : forall taps tx n h p m k f, 0 < n -> taps <= n -> k < tx ->
  received_frequency (leaking_hardware taps tx (3 * n) h) n p m k f = (fft_at Backward (padded taps (h m k)) n f * probing_frequency n p f)%C.
Proof.
  intros taps tx n h p m k f Hn HT Hk. unfold received_frequency, probing_frequency. rewrite (fft_at_ext _ _ (fun t => csum (fun a => h m k a * zadoff_chu n p ((n + t - a) mod n))%C taps)) by (intros t Ht; apply probed_leak; assumption).
  unfold fft_at. replace (RtoC (fft_scale Backward n)) with (RtoC 1) by reflexivity.
  assert (A : csum (fun t => csum (fun a => h m k a * zadoff_chu n p ((n + t - a) mod n))%C taps * cis (- turn n f t))%C n
            = csum (fun a => h m k a * cis (- turn n f a) * csum (fun i => zadoff_chu n p i * cis (- turn n f i)) n)%C taps).
  { rewrite (csum_ext _ (fun t => csum (fun a => h m k a * zadoff_chu n p ((n + t - a) mod n) * cis (- turn n f t))%C taps)) by (intros; rewrite <- csum_scal_r; reflexivity).
    rewrite csum_swap. apply csum_ext. intros a Ha. rewrite <- (csum_rotate (fun i => zadoff_chu n p i * cis (- turn n f i))%C n a) by lia. rewrite <- csum_scal. apply csum_ext. intros t Ht.
    rewrite cis_turn_mod by exact Hn. assert (P : cis (- turn n f t) = (cis (- turn n f a) * cis (- turn n f (n + t - a)))%C).
    { rewrite <- cis_add. unfold turn. assert (N : (INR n <> 0)%R) by (apply not_0_INR; lia). rewrite <- (cis_period_neg (- (2 * PI * INR f * INR t / INR n)) f). f_equal. rewrite minus_INR by lia. rewrite plus_INR. field. exact N. }
    rewrite P. ring. }
  assert (B : csum (fun j => padded taps (h m k) j * cis (- turn n f j))%C n = csum (fun a => h m k a * cis (- turn n f a))%C taps).
  { assert (X : forall (u : nat -> C) b c, n = b + c -> csum u n = (csum u b + csum (fun i => u (b + i)%nat) c)%C) by (intros u b c ->; apply csum_app). rewrite (X _ taps (n - taps)) by lia. rewrite (csum_ext (fun i => (padded taps (h m k) (taps + i) * _)%C) (fun _ => RtoC 0)).
    - rewrite csum_0, Cplus_0_r. apply csum_ext. intros a Ha. unfold padded. destruct (Nat.ltb_spec a taps); [reflexivity|lia].
    - intros i _. unfold padded. destruct (Nat.ltb_spec (taps + i) taps); [lia|ring]. }
  rewrite A, B. rewrite csum_scal_r. ring.
Qed.
Lemma square_fst : forall z : C, fst (Cmult (conj z) z) = (fst z * fst z + snd z * snd z)%R.
Proof. intros [a b]. cbn. ring. Qed.
Lemma csum_fst : forall (f : nat -> C) n, fst (csum f n) = fold_right (fun i acc => (fst (f i) + acc)%R) 0%R (seq 0 n).
Proof.
  intros f n. induction n as [|n IH]; [reflexivity|]. cbn [csum]. rewrite seq_S, fold_right_app. cbn [fold_right Nat.add].
  assert (G : forall l x, fold_right (fun i acc => (fst (f i) + acc)%R) x l = (fold_right (fun i acc => (fst (f i) + acc)%R) 0%R l + x)%R). { induction l as [|y t IHl]; intro x; cbn [fold_right]; [lra|]. rewrite IHl. lra. }
  rewrite G. change (fst (csum f n + f n)%C) with (fst (csum f n) + fst (f n))%R. rewrite IH. lra.
Qed.
Lemma denominator : forall n f probes, 0 < n -> 1 <= probes -> csum (fun p => conj (probing_frequency n p f) * probing_frequency n p f)%C probes <> RtoC 0.
Proof.
  intros n f probes Hn Hp E. apply (f_equal fst) in E. cbn [fst RtoC] in E. destruct probes as [|q]; [lia|]. rewrite csum_S_l in E.
  change (fst (?a + ?b)%C) with (fst a + fst b)%R in E. rewrite square_fst in E.
  assert (G : (0 <= fst (csum (fun i => conj (probing_frequency n (S i) f) * probing_frequency n (S i) f)%C q))%R).
  { rewrite csum_fst. induction (seq 0 q) as [|y t IH]; cbn [fold_right]; [lra|]. rewrite square_fst. pose proof (Rle_0_sqr (fst (probing_frequency n (S y) f))). pose proof (Rle_0_sqr (snd (probing_frequency n (S y) f))). unfold Rsqr in *. lra. }
  pose proof (probing_nonzero n f Hn) as NZ. destruct (probing_frequency n 0 f) as [a b]. cbn [fst snd] in E. apply NZ.
  assert (a = 0%R) by nra. assert (b = 0%R) by nra. subst. reflexivity.
Qed.
(** Least squares estimates recover responses no longer than the probing sequences *)
Lemma estimated : forall taps tx n h probes m k t, 0 < n -> taps <= n -> k < tx -> 1 <= probes -> t < n ->
  time_response (leaking_hardware taps tx (3 * n) h) probes n m k t = padded taps (h m k) t.
Proof.
  intros taps tx n h probes m k t Hn HT Hk Hp Ht. unfold time_response. rewrite <- (ifft_fft_at Backward (padded taps (h m k)) n t Ht). apply ifft_at_ext. intros f _. unfold frequency_response.
  rewrite (csum_ext _ (fun p => fft_at Backward (padded taps (h m k)) n f * (conj (probing_frequency n p f) * probing_frequency n p f))%C) by (intros p _; rewrite received_leak by assumption; ring).
  rewrite csum_scal. pose proof (denominator n f probes Hn Hp) as D. field. exact D.
Qed.
Lemma convolve_padded : forall taps n len (g h x : nat -> C) j, taps <= n -> (forall t, t < n -> g t = padded taps h t) -> convolve_at n len g x j = convolve_at taps len h x j.
Proof.
  intros taps n len g h x j HT HG. unfold convolve_at.
  assert (X : forall (u : nat -> C) b c, n = b + c -> csum u n = (csum u b + csum (fun i => u (b + i)%nat) c)%C) by (intros u b c ->; apply csum_app). rewrite (X _ taps (n - taps)) by lia. clear X.
  match goal with |- (_ + ?r)%C = _ => assert (Z : r = RtoC 0) end.
  { transitivity (csum (fun _ => RtoC 0) (n - taps)); [|apply csum_0]. apply csum_ext. intros a Ha. rewrite HG by lia. unfold padded. destruct (Nat.ltb_spec (taps + a) taps); [lia|]. destruct (_ && _); ring. }
  rewrite Z, Cplus_0_r. apply csum_ext. intros a Ha. rewrite HG by lia. unfold padded. destruct (Nat.ltb_spec a taps); [reflexivity|lia].
Qed.
