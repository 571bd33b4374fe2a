From Coq Require Import Reals List Arith Lia Lra.
From Coquelicot Require Import Complex.
From Verif Require Import Base BaseLemmas Cplx.
Import ListNotations.
Open Scope R_scope.
Open Scope C_scope.

Lemma C_ext (x y : C) : fst x = fst y -> snd x = snd y -> x = y.
Proof. destruct x, y. cbn. intros -> ->. reflexivity. Qed.

Lemma cis_0 : cis 0 = 1.
Proof. unfold cis. rewrite cos_0, sin_0. reflexivity. Qed.
Lemma cis_add a b : cis (a + b)%R = cis a * cis b.
Proof.
  unfold cis. rewrite cos_plus, sin_plus. apply C_ext; cbn; ring.
Qed.
Lemma cis_opp a : cis a * cis (- a)%R = 1.
Proof. rewrite <- cis_add. replace (a + - a)%R with 0%R by ring. apply cis_0. Qed.
Lemma cis_sub a b : cis (a - b)%R = cis a * cis (- b)%R.
Proof. apply cis_add. Qed.
Lemma cis_2PI_nat k : cis (2 * PI * INR k)%R = 1.
Proof.
  induction k.
  - cbn [INR]. rewrite Rmult_0_r. apply cis_0.
  - rewrite S_INR. replace (2 * PI * (INR k + 1))%R with (2 * PI * INR k + 2 * PI)%R by ring.
    rewrite cis_add, IHk. unfold cis. rewrite cos_2PI, sin_2PI. apply C_ext; cbn; ring.
Qed.
Lemma cis_neg_2PI_nat k : cis (- (2 * PI * INR k))%R = 1.
Proof.
  pose proof (cis_opp (2 * PI * INR k)) as H. rewrite cis_2PI_nat in H. rewrite <- H. ring.
Qed.
Lemma conj_cis a : conj (cis a) = cis (- a)%R.
Proof. unfold conj, cis. cbn. rewrite cos_neg, sin_neg. reflexivity. Qed.
Lemma conj_mult (a b : C) : conj (a * b) = conj a * conj b.
Proof. apply C_ext; cbn; ring. Qed.
Lemma conj_plus (a b : C) : conj (a + b) = conj a + conj b.
Proof. apply C_ext; cbn; ring. Qed.
Lemma conj_conj (a : C) : conj (conj a) = a.
Proof. apply C_ext; cbn; ring. Qed.
Lemma conj_R (r : R) : conj (RtoC r) = RtoC r.
Proof. apply C_ext; cbn; ring. Qed.

Lemma cis_nonzero_turn x : (0 < x < 2 * PI)%R -> cis x <> 1.
Proof.
  intros H E. injection E as E _.
  assert (0 < sin (x / 2))%R by (apply sin_gt_0; lra).
  replace x with (2 * (x / 2))%R in E by field. rewrite cos_2a_sin in E. nra.
Qed.

Fixpoint cpow (z : C) (n : nat) : C := match n with O => 1 | S k => z * cpow z k end.

Lemma cis_pow a n : cis (INR n * a)%R = cpow (cis a) n.
Proof.
  induction n.
  - cbn [INR cpow]. rewrite Rmult_0_l. apply cis_0.
  - rewrite S_INR. replace ((INR n + 1) * a)%R with (a + INR n * a)%R by ring.
    rewrite cis_add, IHn. reflexivity.
Qed.

(** *** Sums *)
Lemma csum_ext f g n : (forall i, (i < n)%nat -> f i = g i) -> csum f n = csum g n.
Proof.
  induction n as [|n IH]; intro H; [reflexivity|]. cbn [csum]. rewrite IH, (H n) by auto. reflexivity.
Qed.
Lemma csum_plus (f g : nat -> C) n : csum (fun i => f i + g i) n = csum f n + csum g n.
Proof. induction n as [|n IH]; cbn [csum]; [ring|]. rewrite IH. ring. Qed.
Lemma csum_scal (c : C) f n : csum (fun i => c * f i) n = c * csum f n.
Proof. induction n as [|n IH]; cbn [csum]; [ring|]. rewrite IH. ring. Qed.
Lemma csum_scal_r (c : C) f n : csum (fun i => f i * c) n = csum f n * c.
Proof. induction n as [|n IH]; cbn [csum]; [ring|]. rewrite IH. ring. Qed.
Lemma csum_0 n : csum (fun _ => 0) n = 0.
Proof. induction n as [|n IH]; cbn [csum]; [ring|]. rewrite IH. ring. Qed.
Lemma csum_const (c : C) n : csum (fun _ => c) n = RtoC (INR n) * c.
Proof.
  induction n as [|n IH]; [cbn [csum INR]; ring|]. cbn [csum]. rewrite IH, S_INR, RtoC_plus. ring.
Qed.
Lemma csum_swap f n m :
  csum (fun i => csum (fun j => f i j) m) n = csum (fun j => csum (fun i => f i j) n) m.
Proof.
  induction n as [|n IH]; cbn [csum].
  - rewrite csum_0. reflexivity.
  - rewrite IH, <- csum_plus. reflexivity.
Qed.
Lemma csum_delta (f : nat -> C) n k : (k < n)%nat ->
  csum (fun i => if Nat.eqb i k then f i else 0) n = f k.
Proof.
  induction n as [|n IH]; intro H; [lia|]. cbn [csum].
  destruct (Nat.eqb_spec n k) as [->|Hne].
  - rewrite (csum_ext _ (fun _ => 0)).
    + rewrite csum_0. ring.
    + intros i Hi. destruct (Nat.eqb_spec i k); [lia|reflexivity].
  - rewrite IH by lia. ring.
Qed.
Lemma csum_app (f : nat -> C) a b : csum f (a + b) = csum f a + csum (fun i => f (a + i)%nat) b.
Proof.
  induction b as [|b IH].
  - rewrite Nat.add_0_r. cbn [csum]. ring.
  - rewrite Nat.add_succ_r. cbn [csum]. rewrite IH. ring.
Qed.
Lemma csum_S_l (f : nat -> C) n : csum f (S n) = f 0%nat + csum (fun i => f (S i)) n.
Proof. change (S n) with (1 + n)%nat. rewrite csum_app. cbn [csum Nat.add]. ring. Qed.

Lemma csum_geom (z : C) n : (1 - z) * csum (fun i => cpow z i) n = 1 - cpow z n.
Proof.
  induction n as [|n IH]; cbn [csum cpow]; [ring|].
  replace ((1 - z) * (csum (fun i => cpow z i) n + cpow z n))
    with ((1 - z) * csum (fun i => cpow z i) n + (1 - z) * cpow z n) by ring.
  rewrite IH. ring.
Qed.

Lemma csum_geom_0 (z : C) n : z <> 1 -> cpow z n = 1 -> csum (fun i => cpow z i) n = 0.
Proof.
  intros Hz Hn. pose proof (csum_geom z n) as H. rewrite Hn in H.
  assert (Hd : 1 - z <> 0).
  { intro E. apply Hz. assert (HH : z = RtoC 1 - (1 - z)) by ring. rewrite HH, E. ring. }
  replace (csum (fun i => cpow z i) n) with (/ (1 - z) * ((1 - z) * csum (fun i => cpow z i) n)).
  - rewrite H. ring.
  - field. exact Hd.
Qed.

(** Orthogonality of the roots of unity. *)
Lemma roots_orthogonal n a b : (a < n)%nat -> (b < n)%nat ->
  csum (fun k => cis (turn n k a) * cis (- turn n k b)) n
  = if Nat.eqb a b then RtoC (INR n) else 0.
Proof.
  intros Ha Hb. assert (Hn : INR n <> 0%R) by (apply not_0_INR; lia).
  destruct (Nat.eqb_spec a b) as [->|Hab].
  - rewrite (csum_ext _ (fun _ => 1)).
    + rewrite csum_const. ring.
    + intros i _. apply cis_opp.
  - set (t := (2 * PI * (INR a - INR b) / INR n)%R).
    rewrite (csum_ext _ (fun k => cpow (cis t) k)).
    + apply csum_geom_0.
      * assert (H2 : (0 < 2 * PI)%R) by (pose proof PI_RGT_0; lra).
        assert (Hnp : (0 < INR n)%R) by (apply lt_0_INR; lia).
        destruct (Nat.lt_gt_cases a b) as [[Hlt|Hgt] _]; [exact Hab| |].
        -- intro E. apply (cis_nonzero_turn (- t)).
           ++ unfold t. replace (- (2 * PI * (INR a - INR b) / INR n))%R
                with (2 * PI * ((INR b - INR a) / INR n))%R by (field; exact Hn).
              apply lt_INR in Hlt. apply lt_INR in Hb.
              assert (0 < (INR b - INR a) / INR n < 1)%R.
              { split; [apply Rdiv_lt_0_compat; lra|]. apply Rmult_lt_reg_r with (INR n); [lra|].
                unfold Rdiv. rewrite Rmult_assoc, Rinv_l by exact Hn. pose proof (pos_INR a). lra. }
              nra.
           ++ pose proof (cis_opp t) as Ho. rewrite E in Ho. rewrite <- Ho. ring.
        -- apply cis_nonzero_turn. unfold t.
           replace (2 * PI * (INR a - INR b) / INR n)%R
                with (2 * PI * ((INR a - INR b) / INR n))%R by (field; exact Hn).
           apply lt_INR in Hgt. apply lt_INR in Ha.
           assert (0 < (INR a - INR b) / INR n < 1)%R.
           { split; [apply Rdiv_lt_0_compat; lra|]. apply Rmult_lt_reg_r with (INR n); [lra|].
             unfold Rdiv. rewrite Rmult_assoc, Rinv_l by exact Hn. pose proof (pos_INR b). lra. }
           nra.
      * rewrite <- cis_pow. unfold t.
        replace (INR n * (2 * PI * (INR a - INR b) / INR n))%R
          with (2 * PI * INR a - 2 * PI * INR b)%R by (field; exact Hn).
        rewrite cis_sub, cis_2PI_nat, cis_neg_2PI_nat. ring.
    + intros k _. rewrite <- cis_pow, <- cis_add. f_equal. unfold turn, t. field. exact Hn.
Qed.

Lemma turn_comm n a b : turn n a b = turn n b a.
Proof. unfold turn. f_equal. ring. Qed.

Lemma scale_product m n : (0 < n)%nat -> (fft_scale m n * ifft_scale m n * INR n = 1)%R.
Proof.
  intro H. assert (Hn : (0 < INR n)%R) by (apply lt_0_INR; exact H).
  destruct m; cbn [fft_scale ifft_scale]; try (field; lra).
  assert (Hs : sqrt (INR n) <> 0%R) by (apply Rgt_not_eq, sqrt_lt_R0; exact Hn).
  rewrite <- (sqrt_sqrt (INR n)) at 3 by lra. field. exact Hs.
Qed.

Lemma csum_ifft_fft (x : nat -> C) n k : (k < n)%nat ->
  csum (fun i => csum (fun l => x l * cis (- turn n i l)) n * cis (turn n k i)) n = RtoC (INR n) * x k.
Proof.
  intro Hk.
  transitivity (csum (fun l => csum (fun i => x l * (cis (turn n i k) * cis (- turn n i l))) n) n).
  - rewrite <- csum_swap. apply csum_ext. intros i _. rewrite <- csum_scal_r. apply csum_ext.
    intros l _. rewrite (turn_comm n k i). ring.
  - rewrite (csum_ext _ (fun l => if Nat.eqb l k then RtoC (INR n) * x l else 0)).
    + rewrite (csum_delta (fun l => RtoC (INR n) * x l)) by exact Hk. reflexivity.
    + intros l Hl. rewrite csum_scal, (roots_orthogonal n k l Hk Hl), (Nat.eqb_sym l k).
      destruct (Nat.eqb k l); ring.
Qed.

Lemma csum_fft_ifft (x : nat -> C) n k : (k < n)%nat ->
  csum (fun i => csum (fun l => x l * cis (turn n i l)) n * cis (- turn n k i)) n = RtoC (INR n) * x k.
Proof.
  intro Hk.
  transitivity (csum (fun l => csum (fun i => x l * (cis (turn n i l) * cis (- turn n i k))) n) n).
  - rewrite <- csum_swap. apply csum_ext. intros i _. rewrite <- csum_scal_r. apply csum_ext.
    intros l _. rewrite (turn_comm n k i). ring.
  - rewrite (csum_ext _ (fun l => if Nat.eqb l k then RtoC (INR n) * x l else 0)).
    + rewrite (csum_delta (fun l => RtoC (INR n) * x l)) by exact Hk. reflexivity.
    + intros l Hl. rewrite csum_scal, (roots_orthogonal n l k Hl Hk).
      destruct (Nat.eqb l k); ring.
Qed.

Lemma ifft_fft_at m (x : nat -> C) n k : (k < n)%nat -> ifft_at m (fft_at m x n) n k = x k.
Proof.
  intro Hk. unfold ifft_at, fft_at.
  rewrite (csum_ext _ (fun i => RtoC (fft_scale m n) *
     (csum (fun l => x l * cis (- turn n i l)) n * cis (turn n k i)))) by (intros; ring).
  rewrite csum_scal, csum_ifft_fft by exact Hk.
  transitivity (RtoC (fft_scale m n * ifft_scale m n * INR n) * x k).
  - rewrite !RtoC_mult. ring.
  - rewrite scale_product by lia. ring.
Qed.

(** fft of one normalisation undoes ifft of another up to their scale factors. *)
Lemma fft_ifft_at_gen m m' (x : nat -> C) n k : (k < n)%nat ->
  fft_at m (ifft_at m' x n) n k = RtoC (fft_scale m n * ifft_scale m' n * INR n) * x k.
Proof.
  intro Hk. unfold ifft_at, fft_at.
  rewrite (csum_ext _ (fun i => RtoC (ifft_scale m' n) *
     (csum (fun l => x l * cis (turn n i l)) n * cis (- turn n k i)))) by (intros; ring).
  rewrite csum_scal, csum_fft_ifft by exact Hk. rewrite !RtoC_mult. ring.
Qed.
Lemma fft_ifft_at m (x : nat -> C) n k : (k < n)%nat -> fft_at m (ifft_at m x n) n k = x k.
Proof. intro Hk. rewrite fft_ifft_at_gen, scale_product by lia. ring. Qed.

Lemma fft_at_ext m x y n k : (forall i, (i < n)%nat -> x i = y i) -> fft_at m x n k = fft_at m y n k.
Proof. intro H. unfold fft_at. f_equal. apply csum_ext. intros i Hi. rewrite H by exact Hi. reflexivity. Qed.
Lemma ifft_at_ext m x y n k : (forall i, (i < n)%nat -> x i = y i) -> ifft_at m x n k = ifft_at m y n k.
Proof. intro H. unfold ifft_at. f_equal. apply csum_ext. intros i Hi. rewrite H by exact Hi. reflexivity. Qed.

(** *** Lists *)
Lemma length_tab {B} n (f : nat -> B) : length (tab n f) = n.
Proof. unfold tab. rewrite map_length, seq_length. reflexivity. Qed.
Lemma nth_tab {B} n (f : nat -> B) i d : (i < n)%nat -> nth i (tab n f) d = f i.
Proof.
  intro H. unfold tab. rewrite nth_indep with (d' := f 0%nat) by (rewrite map_length, seq_length; exact H).
  rewrite map_nth, seq_nth by exact H. reflexivity.
Qed.
Lemma tab_ext {B} n (f g : nat -> B) : (forall i, (i < n)%nat -> f i = g i) -> tab n f = tab n g.
Proof. intro H. unfold tab. apply map_ext_in. intros i Hi. apply in_seq in Hi. apply H. lia. Qed.
Lemma tab_nth {B} (d : B) x : tab (length x) (fun i => nth i x d) = x.
Proof.
  apply nth_ext with (d := d) (d' := d); [apply length_tab|]. intros i Hi. rewrite length_tab in Hi.
  apply (nth_tab _ (fun i => nth i x d)). exact Hi.
Qed.
Lemma at0_tab n f i : (i < n)%nat -> at0 (tab n f) i = f i.
Proof. apply nth_tab. Qed.

Lemma length_fft m x : length (fft m x) = length x.
Proof. apply length_tab. Qed.
Lemma length_ifft m x : length (ifft m x) = length x.
Proof. apply length_tab. Qed.

Lemma fft_ifft_gen m m' (x : list C) :
  fft m (ifft m' x) = map (fun c => RtoC (fft_scale m (length x) * ifft_scale m' (length x) * INR (length x)) * c) x.
Proof.
  unfold fft at 1. rewrite length_ifft.
  rewrite <- (tab_nth (RtoC 0) (map _ x)), map_length. apply tab_ext. intros i Hi.
  rewrite (fft_at_ext m _ (ifft_at m' (at0 x) (length x))).
  - rewrite fft_ifft_at_gen by exact Hi. symmetry.
    rewrite nth_indep with (d' := (fun c => RtoC (fft_scale m (length x) * ifft_scale m' (length x) * INR (length x)) * c) 0)
      by (rewrite map_length; exact Hi).
    rewrite map_nth. reflexivity.
  - intros k Hk. apply at0_tab. exact Hk.
Qed.
Lemma map_id_in {B} (f : B -> B) l : (forall x, f x = x) -> map f l = l.
Proof. intro H. rewrite <- (map_id l) at 2. apply map_ext. exact H. Qed.
Lemma fft_ifft m x : fft m (ifft m x) = x.
Proof.
  rewrite fft_ifft_gen. destruct x as [|a x]; [reflexivity|].
  apply map_id_in. intro c. rewrite scale_product by (cbn; lia). ring.
Qed.
Lemma ifft_fft m x : ifft m (fft m x) = x.
Proof.
  unfold ifft at 1. rewrite length_fft. transitivity (tab (length x) (fun i => nth i x (RtoC 0))); [|apply tab_nth].
  apply tab_ext. intros i Hi.
  rewrite (ifft_at_ext m _ (fft_at m (at0 x) (length x))).
  - apply ifft_fft_at. exact Hi.
  - intros k Hk. apply at0_tab. exact Hk.
Qed.

Lemma length_fft_cols m w g : length (fft_cols m w g) = length g.
Proof. apply length_tab. Qed.
Lemma length_ifft_cols m w g : length (ifft_cols m w g) = length g.
Proof. apply length_tab. Qed.
Lemma at2_tab n w f i j : (i < n)%nat -> (j < w)%nat -> at2 (tab n (fun k => tab w (f k))) i j = f i j.
Proof. intros Hi Hj. unfold at2. rewrite nth_tab by exact Hi. apply at0_tab. exact Hj. Qed.

Lemma grid_eta w g : Forall (fun r => length r = w) g ->
  tab (length g) (fun k => tab w (fun j => at2 g k j)) = g.
Proof.
  intro H. transitivity (tab (length g) (fun i => nth i g [])); [|apply tab_nth]. apply tab_ext. intros i Hi. unfold at2, at0.
  assert (E : length (nth i g []) = w) by (rewrite Forall_forall in H; apply H, nth_In, Hi).
  rewrite <- E at 1. apply tab_nth.
Qed.

Lemma ifft_fft_cols m w g : Forall (fun r => length r = w) g ->
  ifft_cols m w (fft_cols m w g) = g.
Proof.
  intro H. unfold ifft_cols. rewrite length_fft_cols. transitivity (tab (length g) (fun k => tab w (fun j => at2 g k j))); [|apply grid_eta, H].
  apply tab_ext. intros k Hk. apply tab_ext. intros j Hj.
  rewrite (ifft_at_ext m _ (fft_at m (fun i => at2 g i j) (length g))).
  - exact (ifft_fft_at m (fun i => at2 g i j) (length g) k Hk).
  - intros i Hi. exact (at2_tab (length g) w (fun k j => fft_at m (fun i => at2 g i j) (length g) k) i j Hi Hj).
Qed.
Lemma fft_ifft_cols m w g : Forall (fun r => length r = w) g ->
  fft_cols m w (ifft_cols m w g) = g.
Proof.
  intro H. unfold fft_cols. rewrite length_ifft_cols. transitivity (tab (length g) (fun k => tab w (fun j => at2 g k j))); [|apply grid_eta, H].
  apply tab_ext. intros k Hk. apply tab_ext. intros j Hj.
  rewrite (fft_at_ext m _ (ifft_at m (fun i => at2 g i j) (length g))).
  - exact (fft_ifft_at m (fun i => at2 g i j) (length g) k Hk).
  - intros i Hi. exact (at2_tab (length g) w (fun k j => ifft_at m (fun i => at2 g i j) (length g) k) i j Hi Hj).
Qed.
Lemma widths_fft_cols m w g : Forall (fun r => length r = w) (fft_cols m w g).
Proof. apply Forall_forall. intros r Hr. apply in_map_iff in Hr as (k & <- & _). apply length_tab. Qed.
Lemma widths_ifft_cols m w g : Forall (fun r => length r = w) (ifft_cols m w g).
Proof. apply Forall_forall. intros r Hr. apply in_map_iff in Hr as (k & <- & _). apply length_tab. Qed.

(** *** Rolls *)
Lemma length_roll_right {B} s (x : list B) : length (roll_right s x) = length x.
Proof. unfold roll_right. rewrite app_length, skipn_length, firstn_length. lia. Qed.
Lemma length_roll_left {B} s (x : list B) : length (roll_left s x) = length x.
Proof. unfold roll_left. rewrite app_length, skipn_length, firstn_length. lia. Qed.
Lemma roll_left_right {B} s (x : list B) : (s <= length x)%nat -> roll_left s (roll_right s x) = x.
Proof.
  intro H. unfold roll_left, roll_right.
  assert (L : length (skipn (length x - s) x) = s) by (rewrite skipn_length; lia).
  set (a := skipn (length x - s) x) in *. rewrite skipn_app, firstn_app, L, Nat.sub_diag.
  rewrite (skipn_all2 a), (firstn_all2 a) by lia.
  cbn [skipn firstn app]. rewrite app_nil_r. apply firstn_skipn.
Qed.
Lemma roll_right_left {B} s (x : list B) : (s <= length x)%nat -> roll_right s (roll_left s x) = x.
Proof.
  intro H. unfold roll_right. rewrite length_roll_left. unfold roll_left.
  assert (L : length (skipn s x) = (length x - s)%nat) by (rewrite skipn_length; lia).
  set (a := skipn s x) in *. rewrite skipn_app, firstn_app, L, Nat.sub_diag.
  rewrite (skipn_all2 a), (firstn_all2 a) by lia.
  cbn [skipn firstn app]. rewrite app_nil_r. apply firstn_skipn.
Qed.
Lemma fftshift_ifftshift {B} (x : list B) : fftshift (ifftshift x) = x.
Proof.
  unfold fftshift, ifftshift. rewrite length_roll_left. apply roll_right_left.
  apply Nat.div_le_upper_bound; lia.
Qed.
