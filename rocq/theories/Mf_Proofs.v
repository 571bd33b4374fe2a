From Coq Require Import List Reals Bool Arith ZArith Lia Lra Psatz.
From Coquelicot Require Import Complex.
From Verif Require Import Base BaseLemmas Cplx Cplx_Proofs Radar_Model Mf_Model Mf_Spec.
Import ListNotations.
Local Open Scope nat_scope.

(** ** Sums *)
Lemma rsum_ext : forall f g n, (forall i, i < n -> f i = g i) -> rsum f n = rsum g n.
Proof. intros f g n. induction n as [|n IH]; intro H; [reflexivity|]. cbn [rsum]. rewrite IH, (H n) by auto. reflexivity. Qed.
Lemma rsum_nonneg : forall f n, (forall i, (0 <= f i)%R) -> (0 <= rsum f n)%R.
Proof. intros f n H. induction n as [|n IH]; cbn [rsum]; [lra|]. specialize (H n). lra. Qed.
Lemma rsum_app : forall f a b, rsum f (a + b) = (rsum f a + rsum (fun i => f (a + i)%nat) b)%R.
Proof. intros f a b. induction b as [|b IH]; [rewrite Nat.add_0_r; cbn [rsum]; lra|]. rewrite Nat.add_succ_r. cbn [rsum]. rewrite IH. lra. Qed.
Lemma rsum_0 : forall f n, (forall i, i < n -> f i = 0%R) -> rsum f n = 0%R.
Proof. intros f n. induction n as [|n IH]; intro H; [reflexivity|]. cbn [rsum]. rewrite IH, (H n) by auto. lra. Qed.
Lemma rsum_scal : forall c f n, rsum (fun i => c * f i)%R n = (c * rsum f n)%R.
Proof. intros c f n. induction n as [|n IH]; cbn [rsum]; [lra|]. rewrite IH. lra. Qed.
Lemma rsum_mono : forall f g n, (forall i, (f i <= g i)%R) -> (rsum f n <= rsum g n)%R.
Proof. intros f g n H. induction n as [|n IH]; cbn [rsum]; [lra|]. specialize (H n). lra. Qed.
Lemma csum_bound : forall f n, (Cmod (csum f n) <= rsum (fun i => Cmod (f i)) n)%R.
Proof. intros f n. induction n as [|n IH]; cbn [csum rsum]; [rewrite Cmod_0; lra|]. eapply Rle_trans; [apply Cmod_triangle|]. lra. Qed.
Lemma csum_real : forall f n, csum (fun i => RtoC (f i)) n = RtoC (rsum f n).
Proof. intros f n. induction n as [|n IH]; cbn [csum rsum]; [reflexivity|]. rewrite IH. rewrite <- RtoC_plus. reflexivity. Qed.
(** Cauchy-Schwarz *)
Lemma schwarz_step : forall p a b x y, (0 <= p -> 0 <= a -> 0 <= b -> 0 <= x -> 0 <= y -> p ^ 2 <= a * b -> (p + x * y) ^ 2 <= (a + x ^ 2) * (b + y ^ 2))%R.
Proof.
  intros p a b x y Hp Ha Hb Hx Hy H. assert (K : (2 * p * (x * y) <= a * y ^ 2 + b * x ^ 2)%R).
  { apply Rsqr_incr_0_var; [|assert (0 <= y ^ 2)%R by (apply pow2_ge_0); assert (0 <= x ^ 2)%R by (apply pow2_ge_0); nra]. unfold Rsqr.
    assert (A : (p ^ 2 * (x * y) ^ 2 <= a * b * (x * y) ^ 2)%R) by (apply Rmult_le_compat_r; [apply pow2_ge_0|exact H]).
    assert (B : (0 <= (a * y ^ 2 - b * x ^ 2) ^ 2)%R) by (apply pow2_ge_0). nra. }
  nra.
Qed.
Lemma schwarz_real : forall f g n, (forall i, (0 <= f i)%R) -> (forall i, (0 <= g i)%R) ->
  (rsum (fun i => f i * g i) n ^ 2 <= rsum (fun i => f i ^ 2) n * rsum (fun i => g i ^ 2) n)%R.
Proof.
  intros f g n F G. induction n as [|n IH]; cbn [rsum]; [lra|]. apply schwarz_step; auto; apply rsum_nonneg; intro i; try apply pow2_ge_0. apply Rmult_le_pos; auto.
Qed.
Lemma Cmod_conj : forall z, Cmod (conj z) = Cmod z.
Proof. intro z. unfold Cmod, conj. cbn [fst snd]. f_equal. ring. Qed.
Lemma schwarz : forall f g n, (Cmod (csum (fun i => f i * conj (g i))%C n) ^ 2 <= rsum (fun i => Cmod (f i) ^ 2) n * rsum (fun i => Cmod (g i) ^ 2) n)%R.
Proof.
  intros f g n. eapply Rle_trans; [|apply schwarz_real; intro i; apply Cmod_ge_0]. apply pow_incr. split; [apply Cmod_ge_0|].
  eapply Rle_trans; [apply csum_bound|]. apply Req_le. apply rsum_ext. intros i _. rewrite Cmod_mult, Cmod_conj. reflexivity.
Qed.

(** ** Rounding *)
Lemma int_of_spec : forall x, (0 <= x)%R -> (INR (int_of x) <= x < INR (int_of x) + 1)%R.
Proof.
  intros x H. unfold int_of. destruct (base_Int_part x) as [A B]. assert (P : (0 <= Int_part x)%Z). { assert (IZR (-1) < IZR (Int_part x))%R by (cbn [IZR IPR]; lra). apply lt_IZR in H0. lia. }
  rewrite INR_IZR_INZ, Z2Nat.id by exact P. lra.
Qed.
Lemma ceil_of_spec : forall x, (0 <= x)%R -> (x <= INR (ceil_of x) < x + 1)%R.
Proof.
  intros x H. unfold ceil_of. destruct (base_Int_part (- x)) as [A B]. assert (P : (0 <= - Int_part (- x))%Z). { assert (IZR (Int_part (- x)) <= IZR 0)%R by lra. apply le_IZR in H0. lia. }
  rewrite INR_IZR_INZ, Z2Nat.id by exact P. rewrite opp_IZR. lra.
Qed.
Lemma int_of_ge : forall x n, (INR n <= x)%R -> n <= int_of x.
Proof. intros x n H. assert (P := pos_INR n). destruct (int_of_spec x ltac:(lra)) as [_ B]. assert (INR n < INR (int_of x + 1))%R by (rewrite plus_INR; cbn [INR]; lra). apply INR_lt in H0. lia. Qed.
Lemma int_of_unique : forall x n, (INR n <= x < INR n + 1)%R -> int_of x = n.
Proof. intros x n H. assert (P := pos_INR n). destruct (int_of_spec x ltac:(lra)) as [A B]. assert (L1 : (INR n < INR (int_of x + 1))%R) by (rewrite plus_INR; cbn [INR]; lra). assert (L2 : (INR (int_of x) < INR (n + 1))%R) by (rewrite plus_INR; cbn [INR]; lra). apply INR_lt in L1. apply INR_lt in L2. lia. Qed.
Lemma ceil_of_le : forall x n, (0 <= x)%R -> (x <= INR n)%R -> ceil_of x <= n.
Proof. intros x n P H. destruct (ceil_of_spec x P) as [_ B]. assert (INR (ceil_of x) < INR (n + 1))%R by (rewrite plus_INR; cbn [INR]; lra). apply INR_lt in H0. lia. Qed.
Lemma ceil_of_nat : forall n, ceil_of (INR n) = n.
Proof. intro n. assert (P := pos_INR n). destruct (ceil_of_spec (INR n) P) as [A B]. apply INR_le in A. assert (L : (INR (ceil_of (INR n)) < INR (n + 1))%R) by (rewrite plus_INR; cbn [INR]; lra). apply INR_lt in L. lia. Qed.

(** ** Streams *)
Lemma at0_out : forall (p : list C) i, length p <= i -> at0 p i = RtoC 0.
Proof. intros p i H. unfold at0. apply nth_overflow. exact H. Qed.
Lemma length_fit : forall n s, length (fit n s) = n.
Proof. intros n s. unfold fit. rewrite firstn_length, app_length, repeat_length. lia. Qed.
Lemma nth_firstn_lt : forall (A : Type) (l : list A) n i d, i < n -> nth i (firstn n l) d = nth i l d.
Proof. intros A l. induction l as [|x r IH]; intros n i d H; [rewrite firstn_nil; reflexivity|]. destruct n as [|n]; [lia|]. destruct i as [|i]; [reflexivity|]. cbn [firstn nth]. apply IH. lia. Qed.
Lemma at0_fit : forall n s l, at0 (fit n s) l = if l <? n then at0 s l else RtoC 0.
Proof.
  intros n s l. destruct (Nat.ltb_spec l n) as [L|L]; [|apply at0_out; rewrite length_fit; exact L]. unfold fit, at0. rewrite nth_firstn_lt by exact L.
  destruct (Nat.lt_ge_cases l (length s)) as [H|H]; [apply app_nth1; exact H|]. rewrite app_nth2 by exact H. rewrite (nth_overflow s) by exact H. apply nth_repeat.
Qed.
Lemma echo_fit : forall x g delay shift rate r n, echo x g delay shift rate r -> delay + length x <= n -> echo x g delay shift rate (fit n r).
Proof.
  intros x g delay shift rate r n H L l. rewrite at0_fit. destruct (Nat.ltb_spec l n) as [K|K]; [apply H|]. destruct (Nat.leb_spec delay l) as [D|D]; [|lia]. rewrite (at0_out x) by lia. ring.
Qed.
Lemma cmod_cis : forall t, Cmod (cis t) = 1%R.
Proof. intro t. unfold Cmod, cis. cbn [fst snd]. replace (cos t ^ 2 + sin t ^ 2)%R with 1%R; [apply sqrt_1|]. assert (H := sin2_cos2 t). unfold Rsqr in H. lra. Qed.
Lemma echo_energy : forall x g delay shift rate r k, echo x g delay shift rate r ->
  (rsum (fun l => Cmod (at0 r (k + l)%nat) ^ 2) (length x) <= Cmod g ^ 2 * energy x)%R.
Proof.
  intros x g delay shift rate r k H. set (w := fun l => (Cmod (at0 r l) ^ 2)%R). assert (W : forall i, (0 <= w i)%R) by (intro i; apply pow2_ge_0).
  assert (T : rsum w (delay + (length x + (k + length x))) = (Cmod g ^ 2 * energy x)%R).
  { rewrite !rsum_app. cbv beta. rewrite (rsum_0 w delay). 2:{ intros i Hi. unfold w. rewrite H. destruct (Nat.leb_spec delay i); [lia|]. rewrite Cmod_0. ring. }
    rewrite (rsum_0 _ k). 2:{ intros i Hi. unfold w. rewrite H. destruct (Nat.leb_spec delay (delay + (length x + i))); [|lia]. rewrite (at0_out x) by lia. rewrite !Cmod_mult, Cmod_0. ring. }
    rewrite (rsum_0 (fun i => w (delay + (length x + (k + i)))) (length x)). 2:{ intros i Hi. unfold w. rewrite H. destruct (Nat.leb_spec delay (delay + (length x + (k + i)))); [|lia]. rewrite (at0_out x) by lia. rewrite !Cmod_mult, Cmod_0. ring. }
    unfold energy. rewrite <- rsum_scal. rewrite (rsum_ext _ (fun i => Cmod g ^ 2 * Cmod (at0 x i) ^ 2)%R (length x)); [lra|].
    intros i Hi. unfold w. rewrite H. destruct (Nat.leb_spec delay (delay + i)); [|lia]. replace (delay + i - delay) with i by lia. rewrite !Cmod_mult, cmod_cis. ring. }
  rewrite <- T. change (rsum (fun l => w (k + l)%nat) (length x) <= rsum w (delay + (length x + (k + length x)))%nat)%R.
  replace (delay + (length x + (k + length x))) with (k + (length x + (delay + length x))) by lia. rewrite rsum_app, rsum_app.
  assert (A := rsum_nonneg w k W). assert (B := rsum_nonneg (fun i => w (k + (length x + i))) (delay + length x) ltac:(intro; apply W)). cbv beta in *. lra.
Qed.

(** ** Correlation of a line with a single transmitted stream *)
Lemma correlate_single : forall x y m f a k, correlate x [y] m f a k = csum (fun l => at0 (nth a x []) (k + l) * conj (f l (at0 y l)))%C m.
Proof. intros x y m f a k. unfold correlate. cbn [length csum nth]. rewrite Nat.add_0_r. ring. Qed.
Lemma shifted_cmod : forall d rate l z, Cmod (shifted d rate l z) = Cmod z.
Proof. intros d rate l z. unfold shifted. rewrite Cmod_mult, cmod_cis. ring. Qed.
Lemma correlation_bound : forall x y g delay shift rate dop a k, echo y g delay shift rate (nth a x []) ->
  (Cmod (correlate x [y] (length y) (shifted dop rate) a k) ^ 2 <= (Cmod g * energy y) ^ 2)%R.
Proof.
  intros x y g delay shift rate dop a k H. rewrite correlate_single. eapply Rle_trans; [apply schwarz|].
  assert (E := echo_energy y g delay shift rate (nth a x []) k H).
  rewrite (rsum_ext (fun i => Cmod (shifted dop rate i (at0 y i)) ^ 2)%R (fun i => Cmod (at0 y i) ^ 2)%R) by (intros i _; rewrite shifted_cmod; reflexivity).
  fold (energy y). assert (P : (0 <= energy y)%R) by (apply rsum_nonneg; intro; apply pow2_ge_0).
  replace ((Cmod g * energy y) ^ 2)%R with (Cmod g ^ 2 * energy y * energy y)%R by ring. apply Rmult_le_compat_r; assumption.
Qed.
Lemma times_conj : forall z, (z * conj z)%C = RtoC (Cmod z ^ 2).
Proof.
  intro z. unfold Cmod. rewrite pow2_sqrt by (apply Rplus_le_le_0_compat; apply pow2_ge_0). apply injective_projections; destruct z as [a b]; cbn; ring.
Qed.
Lemma correlation_hit : forall x y g delay shift rate dop a, echo y g delay shift rate (nth a x []) -> (shift = 2 * dop)%R ->
  correlate x [y] (length y) (shifted dop rate) a delay = (g * RtoC (energy y))%C.
Proof.
  intros x y g delay shift rate dop a H S. rewrite correlate_single. unfold energy. rewrite <- csum_real, <- csum_scal. apply csum_ext. intros l Hl.
  rewrite H. destruct (Nat.leb_spec delay (delay + l)); [|lia]. replace (delay + l - delay) with l by lia. unfold shifted. rewrite conj_mult, conj_cis, <- times_conj.
  replace (2 * PI * shift * (INR l / rate))%R with (4 * PI * dop * INR l / rate)%R by (rewrite S; unfold Rdiv; ring).
  transitivity (g * (at0 y l * conj (at0 y l)) * (cis (4 * PI * dop * INR l / rate) * cis (- (4 * PI * dop * INR l / rate))))%C; [ring|]. rewrite cis_opp. ring.
Qed.
Lemma power_single : forall x y m n f a k, length x = n -> (a < n) -> power x [y] m n f a k = (Cmod (correlate x [y] m f a k) ^ 2 / INR m)%R.
Proof. intros x y m n f a k H L. unfold power. cbn [length]. replace (length x - 1 + 1) with n by lia. rewrite Nat.eqb_refl. reflexivity. Qed.
Lemma energy_nonneg : forall y, (0 <= energy y)%R.
Proof. intro y. apply rsum_nonneg. intro. apply pow2_ge_0. Qed.

(** ** Reception *)
Lemma receive_inv : forall o s rate carrier phase streams c, receive o s rate carrier phase streams = Ok c -> exists tx angles x, s = Some tx /\
  receive_beamform o (map (fit (length (nth 0 tx []) + num_propagated o rate)) streams) = Ok (angles, x) /\
  (0 <= carrier)%R /\ (length (transmitted phase angles tx) <= length x \/ num_propagated o rate = 0) /\
  angle_bins c = angles /\ doppler_bins c = doppler_axis o carrier /\ carrier_frequency c = carrier /\
  na c = length angles /\ nd c = length (doppler_axis o carrier) /\ nr c = num_propagated o rate - ceil_of (2 * min_range o / range_resolution rate) /\
  range_bins c = map (fun k => INR (ceil_of (2 * min_range o / range_resolution rate) + k) * range_resolution rate)%R (seq 0 (nr c)) /\
  forall a d k, data c a d k = power x (transmitted phase angles tx) (length (nth 0 tx [])) (length angles) (shifted (nth d (doppler_axis o carrier) 0%R) rate) a (ceil_of (2 * min_range o / range_resolution rate) + k).
Proof.
  intros o s rate carrier phase streams c. unfold receive. destruct s as [tx|]; [|discriminate].
  destruct (receive_beamform o (map (fit (length (nth 0 tx []) + num_propagated o rate)) streams)) as [[angles x]|e] eqn:B; [|discriminate]. cbn [bind].
  destruct ((length x <? length (transmitted phase angles tx)) && (0 <? num_propagated o rate)) eqn:L; [discriminate|].
  unfold make_cube. cbn [bind]. rewrite !map_length, !seq_length, !Nat.eqb_refl. cbn [negb]. unfold Rltb. destruct (Rlt_dec carrier 0) as [N|N]; [discriminate|].
  intro E. injection E as <-. exists tx, angles, x. cbn [na nd nr angle_bins doppler_bins range_bins carrier_frequency data]. repeat (split; [try reflexivity; try lra; try assumption|]); try reflexivity.
  apply andb_false_iff in L. destruct L as [L|L]; [left; apply Nat.ltb_ge in L; exact L|right; apply Nat.ltb_ge in L; lia].
Qed.
Lemma length_linspace : forall a b n, length (linspace a b n) = n.
Proof. intros a b n. unfold linspace. rewrite map_length, seq_length. reflexivity. Qed.
