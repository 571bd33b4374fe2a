From Coq Require Import List Arith ZArith Reals Lra Lia Bool Sorted Permutation.
From Coquelicot Require Import Complex Hierarchy Series Lim_seq Rbar Rcomplements.
From Verif Require Import Base BaseLemmas Cplx Cplx_Proofs Chan_Model Fad_Model Fad_Spec.
Import ListNotations.
Local Open Scope R_scope.

(** ** Sorting *)
Lemma insert_perm : forall a l, Permutation (a :: l) (insert a l).
Proof. intros a l. induction l as [|b t IH]; [reflexivity|]. cbn [insert]. destruct (delay_leb a b); [reflexivity|]. rewrite perm_swap. apply perm_skip. exact IH. Qed.
Lemma sort_perm : forall l, Permutation l (sort_taps l).
Proof. induction l as [|a t IH]; [reflexivity|]. unfold sort_taps. cbn [fold_right]. fold (sort_taps t). rewrite <- insert_perm. apply perm_skip. exact IH. Qed.
Lemma insert_ordered : forall a l, in_order l -> in_order (insert a l).
Proof.
  intros a l. induction l as [|b t IH]; intro H; cbn [insert]; [repeat constructor|]. unfold delay_leb. inversion H as [|? ? H1 H2]; subst. destruct (Rle_dec (t_delay a) (t_delay b)) as [L|L].
  - constructor; [exact H|]. constructor; [exact L|]. apply (List.Forall_impl _ (P := fun c => t_delay b <= t_delay c)); [intros c Hc; lra|exact H2].
  - constructor; [apply IH; exact H1|]. apply (Permutation_Forall (insert_perm a t)). constructor; [lra|exact H2].
Qed.
Lemma sort_ordered : forall l, in_order (sort_taps l).
Proof. induction l as [|a t IH]; [constructor|]. unfold sort_taps. cbn [fold_right]. apply insert_ordered. exact IH. Qed.
Lemma sort_sorted : forall l, in_order l -> sort_taps l = l.
Proof.
  induction l as [|a t IH]; intro H; [reflexivity|]. inversion H as [|? ? H1 H2]; subst. unfold sort_taps. cbn [fold_right]. fold (sort_taps t). rewrite IH by exact H1.
  destruct t as [|b t]; [reflexivity|]. cbn [insert]. unfold delay_leb. inversion H2; subst. destruct (Rle_dec (t_delay a) (t_delay b)); [reflexivity|contradiction].
Qed.
Lemma zip3_map : forall l, zip3 (map t_delay l) (map t_power l) (map t_rice l) = l.
Proof. induction l as [|[d p k] t IH]; [reflexivity|]. cbn [map zip3 t_delay t_power t_rice]. rewrite IH. reflexivity. Qed.

(** ** Geometric series *)
Lemma exp_INR : forall a k, exp (- a * INR k) = exp (- a) ^ k.
Proof. intros a k. induction k as [|k IH]; [cbn; rewrite Rmult_0_r; apply exp_0|]. rewrite S_INR. cbn [pow]. rewrite <- IH, <- exp_plus. f_equal. ring. Qed.
Lemma geometric_bound : forall a (n : nat), 0 < a -> INR n * exp (- a * INR n) <= / a.
Proof.
  intros a n Ha. assert (P : a * INR n < exp (a * INR n)). { pose proof (exp_ineq1_le (a * INR n)). lra. }
  replace (- a * INR n) with (- (a * INR n)) by ring. rewrite exp_Ropp. pose proof (exp_pos (a * INR n)) as E. apply (Rmult_le_reg_r (exp (a * INR n) * a)); [nra|]. field_simplify; lra.
Qed.
Lemma limit_0 : forall a A B D, 0 < a -> is_lim_seq (fun n => exp (- a * INR n) * (A * INR n * INR n + B * INR n + D)) 0.
Proof.
  intros a A B D Ha. set (b := a / 3). assert (Hb : 0 < b) by (unfold b; lra).
  assert (G : is_lim_seq (fun n => exp (- b * INR n)) 0).
  { apply (is_lim_seq_ext (fun n => exp (- b) ^ n)); [intro n; symmetry; apply exp_INR|]. apply is_lim_seq_geom. rewrite Rabs_pos_eq by (left; apply exp_pos). rewrite <- exp_0. apply exp_increasing. lra. }
  set (K := Rabs A * (/ b * / b) + Rabs B * / b + Rabs D).
  apply (is_lim_seq_le_le (fun n => - K * exp (- b * INR n)) _ (fun n => K * exp (- b * INR n))).
  - intro n. assert (E : exp (- a * INR n) = exp (- b * INR n) * exp (- b * INR n) * exp (- b * INR n)). { rewrite <- !exp_plus. f_equal. unfold b. field. }
    pose proof (geometric_bound b n Hb) as GB. set (y := exp (- b * INR n)) in *. assert (Y : 0 < y) by apply exp_pos.
    assert (Y1 : y <= 1). { unfold y. rewrite <- exp_0. pose proof (pos_INR n). destruct (Req_dec (INR n) 0) as [Z|Z]; [rewrite Z, Rmult_0_r; lra|]. left. apply exp_increasing. nra. }
    rewrite E. set (t := INR n * y) in *. assert (T0 : 0 <= t). { unfold t. pose proof (pos_INR n). nra. }
    assert (X : exists z, y * y * y * (A * INR n * INR n + B * INR n + D) = z * y /\ Rabs z <= K).
    { exists (A * (t * t) + B * t * y + D * (y * y)). split; [unfold t; ring|]. unfold K.
      eapply Rle_trans; [apply Rabs_triang|]. apply Rplus_le_compat.
      - eapply Rle_trans; [apply Rabs_triang|]. apply Rplus_le_compat.
        + rewrite Rabs_mult. apply Rmult_le_compat_l; [apply Rabs_pos|]. rewrite Rabs_pos_eq by nra. apply Rmult_le_compat; lra.
        + rewrite !Rabs_mult, (Rabs_pos_eq t), (Rabs_pos_eq y) by lra. rewrite Rmult_assoc. apply Rmult_le_compat_l; [apply Rabs_pos|]. assert (0 < / b) by (apply Rinv_0_lt_compat; exact Hb). nra.
      - rewrite Rabs_mult, (Rabs_pos_eq (y * y)) by nra. rewrite <- (Rmult_1_r (Rabs D)) at 2. apply Rmult_le_compat_l; [apply Rabs_pos|]. nra. }
    destruct X as (z & -> & Z). apply Rabs_def2b in Z || idtac. assert (- K <= z <= K). { split; [|]; revert Z; unfold Rabs; destruct (Rcase_abs z); lra. } nra.
  - replace (Finite 0) with (Rbar_mult (- K) 0) by (cbn; f_equal; ring). apply (is_lim_seq_scal_l (fun n => exp (- b * INR n)) (- K) 0). exact G.
  - replace (Finite 0) with (Rbar_mult K 0) by (cbn; f_equal; ring). apply (is_lim_seq_scal_l (fun n => exp (- b * INR n)) K 0). exact G.
Qed.
Lemma telescope : forall (f g : nat -> R), (forall n, f n = g n - g (S n)) -> is_lim_seq g 0 -> is_series f (g 0%nat).
Proof.
  intros f g H L. unfold is_series. change (is_lim_seq (sum_n f) (g 0%nat)).
  apply (is_lim_seq_ext (fun n => g 0%nat - g (S n))).
  - intro n. induction n as [|n IH]; [rewrite sum_O; symmetry; apply H|]. rewrite sum_Sn, <- IH, H. change plus with Rplus. cbv beta. ring.
  - replace (Finite (g 0%nat)) with (Finite (g 0%nat - 0)) by (f_equal; ring). apply is_lim_seq_minus'; [apply is_lim_seq_const|]. apply (is_lim_seq_incr_1 g). exact L.
Qed.
(** What the sums have in common *)
Lemma geometric_sums : forall a (T : R), 0 < a -> let q := exp (- a) in let mu := q / (1 - q) in
  is_series (fun k => exp (- a * INR k)) (/ (1 - q)) /\ is_series (fun k => exp (- a * INR k) * (INR k * T)) (/ (1 - q) * (mu * T)) /\
  is_series (fun k => exp (- a * INR k) * (INR k * T - mu * T) ^ 2) (/ (1 - q) * (T * T * (q / ((1 - q) * (1 - q))))).
Proof.
  intros a T Ha q mu. assert (Q : 0 < q < 1). { split; [apply exp_pos|]. unfold q. rewrite <- exp_0. apply exp_increasing. lra. }
  assert (N : forall n, exp (- a * INR (S n)) = q * exp (- a * INR n)). { intro n. rewrite S_INR. unfold q. rewrite <- exp_plus. f_equal. ring. }
  assert (Z : forall A B D, exp (- a * INR 0) * (A * INR 0 * INR 0 + B * INR 0 + D) = D). { intros A B D. cbn [INR]. rewrite Rmult_0_r, exp_0. ring. }
  assert (W : forall (A B D v : R) f, (forall n, f n = exp (- a * INR n) * (A * INR n * INR n + B * INR n + D) - exp (- a * INR (S n)) * (A * INR (S n) * INR (S n) + B * INR (S n) + D)) -> v = D -> is_series f v).
  { intros A B D v f HF ->. rewrite <- (Z A B D) at 1. apply (telescope f (fun n => exp (- a * INR n) * (A * INR n * INR n + B * INR n + D)) HF). apply limit_0. exact Ha. }
  split; [|split].
  - apply (W 0 0 (/ (1 - q))); [|reflexivity]. intro n. rewrite N. field. lra.
  - apply (W 0 (T / (1 - q)) (/ (1 - q) * (mu * T))); [|reflexivity]. intro n. rewrite N, S_INR. unfold mu. field. lra.
  - apply (W (T * T / (1 - q)) 0 (/ (1 - q) * (T * T * (q / ((1 - q) * (1 - q)))))); [|reflexivity]. intro n. rewrite N, S_INR. unfold mu. field. lra.
Qed.

(** ** The decay *)
Lemma alpha_spec : forall T r, 0 < T -> 0 < r -> let a := alpha T r in let q := exp (- a) in 0 < a /\ r * r = T * T * (q / ((1 - q) * (1 - q))).
Proof.
  intros T rms HT Hr a q. set (r := rms / T) in *. assert (R0 : 0 < r) by (apply Rdiv_lt_0_compat; assumption).
  set (s := sqrt (1 + 4 * (r * r))). assert (S1 : s * s = 1 + 4 * (r * r)) by (apply sqrt_sqrt; nra). assert (S0 : 0 <= s) by apply sqrt_pos. assert (S2 : 1 < s) by nra. assert (S3 : s < 1 + 2 * r) by nra.
  set (x := (- 1 + s) / (2 * r)). assert (X0 : 0 < x) by (apply Rdiv_lt_0_compat; lra). assert (X1 : x < 1). { apply (Rmult_lt_reg_r (2 * r)); [lra|]. unfold x. field_simplify; lra. }
  assert (A : a = - 2 * ln x) by reflexivity. assert (L : ln x < 0) by (rewrite <- ln_1; apply ln_increasing; lra). split; [lra|].
  assert (Q : q = x * x). { unfold q. rewrite A. replace (- (- 2 * ln x)) with (ln x + ln x) by ring. rewrite exp_plus, exp_ln by exact X0. reflexivity. }
  assert (E : r * (x * x) + x = r). { assert (XS : s = 2 * r * x + 1) by (unfold x; field; lra). rewrite XS in S1. nra. }
  assert (D : 0 < 1 - x * x) by nra. rewrite Q. assert (RR : r = x / (1 - x * x)). { apply (Rmult_eq_reg_r (1 - x * x)); [|lra]. replace (x / (1 - x * x) * (1 - x * x)) with x by (field; lra). lra. }
  assert (RT : rms = T * r) by (unfold r; field; lra). rewrite RT, RR. field. lra.
Qed.
Lemma truncation_bounds : forall a k, 0 < a -> (k < Z.to_nat (max_delay_in_samples a + 1))%nat <-> truncation <= exp (- a * INR k).
Proof.
  intros a k Ha. unfold max_delay_in_samples. set (x := - (ln truncation / a)). assert (T0 : 0 < truncation < 1) by (unfold truncation; lra).
  assert (LT : ln truncation < 0) by (rewrite <- ln_1; apply ln_increasing; lra). assert (X : a * x = - ln truncation) by (unfold x; field; lra). assert (X0 : 0 < x) by nra.
  pose proof (base_Int_part x) as [B1 B2]. assert (I : (0 <= Int_part x)%Z). { apply Z.lt_succ_r. apply lt_IZR. unfold Z.succ. rewrite plus_IZR. lra. }
  assert (E : truncation <= exp (- a * INR k) <-> INR k <= x).
  { split; intro H.
    - destruct (Rle_lt_dec (INR k) x) as [L|L]; [exact L|]. exfalso. assert (exp (- a * INR k) < truncation); [|lra]. rewrite <- (exp_ln truncation) by lra. apply exp_increasing. nra.
    - rewrite <- (exp_ln truncation) by lra. destruct (Req_dec (- a * INR k) (ln truncation)) as [->|NE]; [lra|]. left. apply exp_increasing. nra. }
  rewrite E, INR_IZR_INZ. split; intro H.
  - apply Rle_trans with (IZR (Int_part x)); [|exact B1]. apply IZR_le. lia.
  - apply Nat2Z.inj_lt. rewrite Z2Nat.id by lia. apply lt_IZR. rewrite plus_IZR. lra.
Qed.

(** ** The channel with exponential taps *)
Lemma exponential_ordered : forall T a, 0 < T -> in_order (exponential_taps T a).
Proof.
  intros T a HT. unfold exponential_taps. generalize 0%nat as s. generalize (Z.to_nat (max_delay_in_samples a + 1)) as n. induction n as [|n IH]; intro s; cbn [seq map]; [constructor|].
  constructor; [apply IH|]. apply List.Forall_forall. intros t I. apply in_map_iff in I as (k & <- & I). apply in_seq in I. cbn [t_delay]. apply Rmult_le_compat_r; [lra|]. apply le_INR. lia.
Qed.
Lemma existsb_none : forall {A} (f : A -> bool) l, (forall x, In x l -> f x = false) -> existsb f l = false.
Proof. intros A f l H. induction l as [|x t IH]; [reflexivity|]. cbn [existsb]. rewrite H by (left; reflexivity). apply IH. intros y I. apply H. right. exact I. Qed.
Lemma make_fading_taps : forall l n los u, (1 <= length l)%nat -> List.Forall (fun t => 0 <= t_delay t /\ 0 <= t_power t /\ match t_rice t with None => True | Some k => 0 <= k end) l ->
  make_fading (map t_delay l) (map t_power l) (map t_rice l) n los u = Ok (Fading_ (sort_taps l) n n (match los with None => u | Some a => a end)).
Proof.
  intros l n los u H F. unfold make_fading. rewrite !map_length. destruct (Nat.ltb_spec (length l) 1); [lia|]. rewrite !Nat.eqb_refl. cbn [negb orb]. rewrite List.Forall_forall in F.
  assert (NEG : forall x, 0 <= x -> negative x = false). { intros x Hx. unfold negative. destruct (Rlt_dec x 0); [lra|reflexivity]. }
  rewrite !existsb_none.
  - rewrite zip3_map. reflexivity.
  - intros k I. apply in_map_iff in I as (t & <- & I). destruct (F t I) as (_ & _ & K). destruct (t_rice t); [apply NEG; exact K|reflexivity].
  - intros k I. apply in_map_iff in I as (t & <- & I). apply NEG, (F t I).
  - intros k I. apply in_map_iff in I as (t & <- & I). apply NEG, (F t I).
Qed.

(** ** Sums over taps *)
Lemma total_app : forall a b, total (a ++ b) = total a + total b.
Proof. induction a as [|x t IH]; intro b; cbn; [ring|rewrite IH; ring]. Qed.
Lemma total_fold : forall l, fold_right Rplus 0 l = total l.
Proof. induction l as [|x t IH]; [reflexivity|]. cbn. rewrite IH. reflexivity. Qed.
Lemma total_perm : forall a b, Permutation a b -> total a = total b.
Proof. intros a b P. induction P; cbn; try lra. Qed.
Lemma total_nonneg : forall l, List.Forall (fun x => 0 <= x) l -> 0 <= total l.
Proof. induction l as [|x t IH]; intro H; cbn; [lra|]. inversion H; subst. specialize (IH ltac:(assumption)). lra. Qed.
Lemma total_pos : forall l, l <> [] -> List.Forall (fun x => 0 < x) l -> 0 < total l.
Proof. intros [|x t] N H; [contradiction|]. cbn. inversion H; subst. assert (0 <= total t); [|lra]. apply total_nonneg. eapply List.Forall_impl; [|eassumption]. intros y Hy. cbv beta in Hy. lra. Qed.
Lemma total_S : forall (f : nat -> R) n, total (map f (seq 0 (S n))) = total (map f (seq 0 n)) + f n.
Proof. intros f n. rewrite seq_S, map_app, total_app. cbn. ring. Qed.
Lemma total_scale : forall {A} (f : A -> R) c l, total (map (fun x => f x / c) l) = total (map f l) / c.
Proof. intros A f c l. unfold Rdiv. induction l as [|x t IH]; cbn; [ring|rewrite IH; ring]. Qed.
(** The moment about any point is at least the one about the mean *)
Lemma shifted_moment : forall (p d : tap -> R) m c l, let P := total (map p l) in P * m = total (map (fun t => p t * d t) l) ->
  total (map (fun t => p t * (d t - m) ^ 2) l) = total (map (fun t => p t * (d t - c) ^ 2) l) - P * (m - c) ^ 2.
Proof.
  intros p d m c l P H.
  assert (E : forall z, total (map (fun t => p t * (d t - z) ^ 2) l) = total (map (fun t => p t * d t ^ 2) l) - 2 * z * total (map (fun t => p t * d t) l) + z ^ 2 * P).
  { intro z. unfold P. clear. induction l as [|t l IH]; cbn [map total]; [ring|]. rewrite IH. ring. }
  rewrite !E, <- H. ring.
Qed.
Lemma truncated_moment : forall a T n, 0 < a -> let q := exp (- a) in let mu := q / (1 - q) in
  total (map (fun k => exp (- a * INR k) * (INR k * T - mu * T) ^ 2) (seq 0 n)) =
  T * T * (q / ((1 - q) * (1 - q))) * total (map (fun k => exp (- a * INR k)) (seq 0 n)) - exp (- a * INR n) * (INR n * T) ^ 2 / (1 - q).
Proof.
  intros a T n Ha q mu. assert (Q : 0 < q < 1). { split; [apply exp_pos|]. unfold q. rewrite <- exp_0. apply exp_increasing. lra. }
  induction n as [|n IH]; [cbn; field; lra|]. rewrite !total_S, IH, S_INR.
  replace (- a * (INR n + 1)) with (- a * INR n + - a) by ring. rewrite exp_plus. fold q. unfold mu. field. lra.
Qed.
Lemma exponential_made : forall T r n los u c, make_exponential T r n los u = Ok c -> 0 < T /\ 0 < r /\ c_taps c = exponential_taps T (alpha T r) /\ (1 <= length (c_taps c))%nat.
Proof.
  intros T r n los u c. unfold make_exponential. destruct (Rle_dec T 0) as [|HT]; [discriminate|]. destruct (Rle_dec r 0) as [|Hr]; [discriminate|].
  assert (HT' : 0 < T) by lra. assert (Hr' : 0 < r) by lra. destruct (alpha_spec T r HT' Hr') as [A _].
  assert (L : (1 <= length (exponential_taps T (alpha T r)))%nat).
  { unfold exponential_taps. rewrite map_length, seq_length. apply (truncation_bounds _ 0 A). cbn [INR]. rewrite Rmult_0_r, exp_0. unfold truncation. lra. }
  rewrite make_fading_taps; [|exact L|].
  - intro H. injection H as <-. cbn [c_taps]. rewrite sort_sorted by (apply exponential_ordered; exact HT'). auto.
  - apply List.Forall_forall. intros t I. unfold exponential_taps in I. apply in_map_iff in I as (k & <- & _). cbn [t_delay t_power t_rice]. pose proof (pos_INR k). repeat split; [apply Rmult_le_pos; lra|left; apply exp_pos|lra].
Qed.
Lemma truncated_spread : forall T r n los u c, make_exponential T r n los u = Ok c -> squared_spread (c_taps c) < r * r.
Proof.
  intros T r n los u c H. destruct (exponential_made _ _ _ _ _ _ H) as (HT & Hr & E & L). destruct (alpha_spec T r HT Hr) as [A S2]. rewrite E in *. clear H E. revert A S2 L. unfold exponential_taps. set (a := alpha T r). set (N := Z.to_nat (max_delay_in_samples a + 1)).
  clearbody a N. intros A S2 L. rewrite map_length, seq_length in L. set (l := map (fun k : nat => Tap (INR k * T) (exp (- a * INR k)) (Some 0)) (seq 0 N)) in *.
  set (q := exp (- a)) in *. assert (Q : 0 < q < 1). { split; [apply exp_pos|]. unfold q. rewrite <- exp_0. apply exp_increasing. lra. }
  unfold squared_spread. set (P := total (map t_power l)). assert (PE : P = total (map (fun k => exp (- a * INR k)) (seq 0 N))). { unfold P, l. rewrite map_map. reflexivity. }
  assert (P0 : 0 < P). { rewrite PE. apply total_pos; [destruct N; [lia|discriminate]|]. apply List.Forall_forall. intros x I. apply in_map_iff in I as (k & <- & _). apply exp_pos. }
  apply (Rmult_lt_reg_r P); [exact P0|]. replace (_ / P * P) with (total (map (fun t : tap => t_power t * (t_delay t - mean_delay l) ^ 2) l)) by (field; lra).
  rewrite (shifted_moment t_power t_delay (mean_delay l) (q / (1 - q) * T) l).
  2:{ unfold mean_delay. fold P. field. lra. }
  fold P. assert (M : total (map (fun t : tap => t_power t * (t_delay t - q / (1 - q) * T) ^ 2) l) = total (map (fun k => exp (- a * INR k) * (INR k * T - q / (1 - q) * T) ^ 2) (seq 0 N))). { unfold l. rewrite map_map. reflexivity. }
  rewrite M. unfold q. rewrite (truncated_moment a T N A). fold q. rewrite <- PE, <- S2.
  assert (X1 : 0 < exp (- a * INR N) * (INR N * T) ^ 2 / (1 - q)). { apply Rdiv_lt_0_compat; [|lra]. apply Rmult_lt_0_compat; [apply exp_pos|]. apply pow_lt. apply Rmult_lt_0_compat; [|exact HT]. apply lt_0_INR. lia. }
  assert (X2 : 0 <= P * (mean_delay l - q / (1 - q) * T) ^ 2). { apply Rmult_le_pos; [lra|]. apply pow2_ge_0. } lra.
Qed.

(** ** Normalised tables *)
Lemma normalised_sum : forall db, db <> [] -> total (normalised db) = 1 /\ List.Forall (fun p => 0 < p) (normalised db).
Proof.
  intros db N. unfold normalised. cbv zeta. rewrite (total_fold (map (fun x => Rpower 10 (x / 10)) db)). set (p := map (fun x => Rpower 10 (x / 10)) db).
  assert (F : List.Forall (fun x => 0 < x) p). { apply List.Forall_forall. intros x I. apply in_map_iff in I as (y & <- & _). apply exp_pos. }
  assert (T : 0 < total p). { apply total_pos; [destruct db; [contradiction|discriminate]|exact F]. }
  split.
  - transitivity (total (map (fun x => x) p) / total p); [exact (total_scale (fun x => x) (total p) p)|]. rewrite map_id. field. lra.
  - apply List.Forall_forall. intros x I. apply in_map_iff in I as (y & <- & I). rewrite List.Forall_forall in F. apply Rdiv_lt_0_compat; [apply F; exact I|exact T].
Qed.
Lemma normalised_ratio : forall db i j a b, nth_error db i = Some a -> nth_error db j = Some b ->
  exists x y, nth_error (normalised db) i = Some x /\ nth_error (normalised db) j = Some y /\ 10 * (ln (x / y) / ln 10) = a - b.
Proof.
  intros db i j a b Ia Ib. unfold normalised. cbv zeta. rewrite (total_fold (map (fun x => Rpower 10 (x / 10)) db)). set (p := map (fun x => Rpower 10 (x / 10)) db). assert (T : 0 < total p).
  { apply total_pos; [unfold p; destruct db; [destruct i; discriminate|discriminate]|]. apply List.Forall_forall. intros x I. apply in_map_iff in I as (y & <- & _). apply exp_pos. }
  exists (Rpower 10 (a / 10) / total p), (Rpower 10 (b / 10) / total p). rewrite !nth_error_map'. assert (PP : forall k z, nth_error db k = Some z -> nth_error p k = Some (Rpower 10 (z / 10))) by (intros k z K; unfold p; rewrite nth_error_map', K; reflexivity). rewrite (PP i a Ia), (PP j b Ib). split; [reflexivity|split; [reflexivity|]].
  assert (LN : 0 < ln 10) by (rewrite <- ln_1; apply ln_increasing; lra).
  replace (Rpower 10 (a / 10) / total p / (Rpower 10 (b / 10) / total p)) with (Rpower 10 ((a - b) / 10)).
  - unfold Rpower. rewrite ln_exp. field. lra.
  - replace ((a - b) / 10) with (a / 10 + - (b / 10)) by field. rewrite Rpower_plus, Rpower_Ropp. field. split; [lra|apply Rgt_not_eq, exp_pos].
Qed.

(** ** Covariances *)
Lemma csum_conj : forall f n, Cconj (csum f n) = csum (fun i => Cconj (f i)) n.
Proof. intros f n. induction n as [|n IH]; [apply injective_projections; cbn; ring|]. cbn [csum]. rewrite <- IH. apply injective_projections; cbn; ring. Qed.
Lemma csum_nonneg : forall f n, (forall k, (k < n)%nat -> 0 <= fst (f k) /\ snd (f k) = 0) -> 0 <= fst (csum f n) /\ snd (csum f n) = 0.
Proof. intros f n H. induction n as [|n IH]; [cbn; lra|]. cbn [csum]. destruct IH as [I1 I2]; [intros k L; apply H; lia|]. destruct (H n) as [H1 H2]; [lia|]. cbn. lra. Qed.
Lemma factored : forall n r (c : nat -> R) (L : nat -> nat -> R) m, (forall k, (k < r)%nat -> 0 <= c k) ->
  (forall i j, (i < n)%nat -> (j < n)%nat -> m i j = csum (fun k => RtoC (c k * L i k * L j k)) r) -> covariance n m.
Proof.
  intros n r c L m C E. split.
  - intros i j Hi Hj. rewrite (E i j Hi Hj), (E j i Hj Hi), csum_conj. apply csum_ext. intros k _. apply injective_projections; cbn; ring.
  - intro x. set (y := fun k => csum (fun j => RtoC (L j k) * x j)%C n).
    assert (Q : quadratic n m x = csum (fun k => (RtoC (c k) * (Cconj (y k) * y k))%C) r).
    { unfold quadratic. transitivity (csum (fun i => csum (fun k => csum (fun j => Cconj (x i) * RtoC (c k * L i k * L j k) * x j)%C n) r) n).
      - apply csum_ext. intros i Hi. rewrite <- csum_swap. apply csum_ext. intros j Hj. rewrite (E i j Hi Hj), <- csum_scal, <- csum_scal_r. reflexivity.
      - rewrite csum_swap. apply csum_ext. intros k _. unfold y. rewrite csum_conj, <- csum_scal_r, <- csum_scal. apply csum_ext. intros i _.
        rewrite <- !csum_scal. apply csum_ext. intros j _. apply injective_projections; cbn; ring. }
    rewrite Q. apply csum_nonneg. intros k Hk. specialize (C k Hk). generalize (y k). intros [u v]. cbn. split; [|ring].
    match goal with |- 0 <= ?e => replace e with (c k * (u ^ 2 + v ^ 2)) by ring end. apply Rmult_le_pos; [exact C|]. pose proof (pow2_ge_0 u). pose proof (pow2_ge_0 v). lra.
Qed.
Definition root9 (f : R) : R := rpow f (1 / 9).
Lemma root9_spec : forall f, 0 <= f <= 1 -> 0 <= root9 f <= 1 /\ rpow f (4 / 9) = root9 f ^ 4 /\ f = root9 f ^ 9.
Proof.
  intros f F. unfold root9, rpow. destruct (Rle_dec f 0) as [Z|P]; [assert (f = 0) by lra; subst f; repeat split; try lra; ring|]. assert (P' : 0 < f) by lra.
  assert (Q : forall n, Rpower f (1 / 9) ^ n = Rpower f (INR n / 9)). { intro n. rewrite <- Rpower_pow by apply exp_pos. rewrite Rpower_mult. f_equal. field. }
  split; [|split].
  - split; [left; apply exp_pos|]. unfold Rpower. apply Rle_trans with (exp 0); [|rewrite exp_0; lra]. destruct (Rle_lt_or_eq_dec f 1 (proj2 F)) as [N|N]; [|rewrite N, ln_1, Rmult_0_r; lra]. left. apply exp_increasing. assert (ln f < 0) by (rewrite <- ln_1; apply ln_increasing; lra). lra.
  - rewrite Q. f_equal. cbn. field.
  - rewrite Q. replace (INR 9 / 9) with 1 by (cbn; field). rewrite Rpower_1 by exact P'. reflexivity.
Qed.
Lemma standard_is_covariance : forall f n m, 0 <= f <= 1 -> standard_covariance f n = Ok m -> covariance n m /\ forall i, (i < n)%nat -> m i i = RtoC 1.
Proof.
  intros f n m F H. destruct n as [|[|[|[|[|n]]]]]; try discriminate H; cbn in H; injection H as <-.
  - split; [|intros; reflexivity]. apply (factored 1 1 (fun _ => 1) (fun _ _ => 1)); [intros; lra|]. intros i j _ _. cbn [csum]. apply injective_projections; cbn; ring.
  - split; [|intros i _; rewrite Nat.eqb_refl; reflexivity].
    apply (factored 2 2 (fun k => match k with 0%nat => 1 | _ => 1 - f ^ 2 end) (fun i k => match i, k with 0%nat, 0%nat => 1 | 0%nat, _ => 0 | _, 0%nat => f | _, _ => 1 end)).
    + intros [|k] _; nra.
    + intros [|[|i]] [|[|j]] Hi Hj; try lia; cbn [csum Nat.eqb]; apply injective_projections; cbn; ring.
  - destruct (root9_spec f F) as (B & E4 & E9). fold (root9 f). rewrite E4. set (a := root9 f) in *. clearbody a. subst f. split.
    + apply (factored 4 4 (fun k => match k with 0%nat => 1 | 1%nat => 1 - a ^ 2 | 2%nat => (1 - a ^ 2) * (1 - a ^ 4) | _ => (1 - a ^ 2) * (1 - a ^ 4) * (1 - a ^ 6) end)
               (fun i k => match i, k with
                           | 0%nat, 0%nat => 1 | 1%nat, 0%nat => a | 1%nat, 1%nat => 1
                           | 2%nat, 0%nat => a ^ 4 | 2%nat, 1%nat => a * (1 + a ^ 2) | 2%nat, 2%nat => 1
                           | 3%nat, 0%nat => a ^ 9 | 3%nat, 1%nat => a ^ 4 * (1 + a ^ 2 + a ^ 4) | 3%nat, 2%nat => a * (1 + a ^ 2 + a ^ 4) | 3%nat, 3%nat => 1
                           | _, _ => 0 end)).
      * assert (A : forall k, 0 <= 1 - a ^ k). { intro k. assert (a ^ k <= 1); [|lra]. rewrite <- (pow1 k). apply pow_incr. exact B. }
        intros [|[|[|k]]] _; [lra|apply A|apply Rmult_le_pos; apply A|apply Rmult_le_pos; [apply Rmult_le_pos; apply A|apply A]].
      * intros [|[|[|[|i]]]] [|[|[|[|j]]]] Hi Hj; try lia; cbn [csum Nat.leb Nat.sub]; apply injective_projections; cbn; ring.
    + intros i _. rewrite Nat.leb_refl, Nat.sub_diag. reflexivity.
Qed.

(** ** Correlated antennas *)
Lemma correlated_response : forall n (m : nat -> nat -> C) (h : nat -> nat -> C) draws i j, uncorrelated draws n h -> (i < n)%nat -> (j < n)%nat ->
  correlation_of draws (fun w i => csum (fun k => m i k * h w k)%C n) i j = csum (fun k => m i k * Cconj (m j k))%C n.
Proof.
  intros n m h draws i j [D U] Hi Hj. unfold correlation_of.
  assert (X : csum (fun w => csum (fun k => m i k * h w k) n * Cconj (csum (fun k => m j k * h w k) n))%C draws = (RtoC (INR draws) * csum (fun k => m i k * Cconj (m j k)) n)%C).
  { transitivity (csum (fun w => csum (fun k => csum (fun l => m i k * Cconj (m j l) * (h w k * Cconj (h w l)))%C n) n) draws).
    - apply csum_ext. intros w _. rewrite csum_conj, <- csum_scal_r. apply csum_ext. intros k _. rewrite <- csum_scal. apply csum_ext. intros l _. apply injective_projections; cbn; ring.
    - rewrite csum_swap. transitivity (csum (fun k => csum (fun l => csum (fun w => m i k * Cconj (m j l) * (h w k * Cconj (h w l)))%C draws) n) n).
      + apply csum_ext. intros k _. rewrite csum_swap. reflexivity.
      + rewrite <- csum_scal. apply csum_ext. intros k Hk.
        transitivity (csum (fun l => if Nat.eqb l k then (RtoC (INR draws) * (m i k * Cconj (m j l)))%C else RtoC 0) n).
        * apply csum_ext. intros l Hl. rewrite csum_scal, (U k l Hk Hl), Nat.eqb_sym. destruct (Nat.eqb l k); ring.
        * rewrite csum_delta by exact Hk. reflexivity. }
  rewrite X. assert (N : RtoC (INR draws) <> RtoC 0). { intro Z. apply RtoC_inj in Z. apply not_0_INR in Z; [exact Z|lia]. } field. exact N.
Qed.

(** ** Sampled paths *)
Lemma sampled_map : forall {A} (f : path -> A) (g : tap -> A) c u, (forall i t, f (sample_path c u i t) = g t) -> map f (sample_paths c u) = map g (c_taps c).
Proof.
  intros A f g c u H. unfold sample_paths. rewrite map_map. rewrite (map_ext _ (fun p => g (snd p))) by (intros [i t]; apply H).
  generalize 0%nat. induction (c_taps c) as [|t l IH]; intro s; [reflexivity|]. cbn [length seq combine map snd]. rewrite IH. reflexivity.
Qed.
Lemma sampled_delays : forall c u, map p_delay (sample_paths c u) = map t_delay (c_taps c).
Proof. intros c u. apply sampled_map. intros i t. unfold sample_path. destruct (rice_gains (t_rice t) (c_drawn c)). reflexivity. Qed.
Lemma sampled_powers : forall c u, map power (sample_paths c u) = map t_power (c_taps c).
Proof. intros c u. apply sampled_map. intros i t. unfold sample_path. destruct (rice_gains (t_rice t) (c_drawn c)). reflexivity. Qed.
Lemma make_fading_inv : forall ds ps ks n los u c, make_fading ds ps ks n los u = Ok c ->
  (1 <= length ds)%nat /\ length ds = length ps /\ length ps = length ks /\ c = Fading_ (sort_taps (zip3 ds ps ks)) n n (match los with None => u | Some a => a end).
Proof.
  intros ds ps ks n los u c. unfold make_fading. destruct (Nat.ltb_spec (length ds) 1); [discriminate|]. destruct (Nat.eqb_spec (length ds) (length ps)) as [E1|E1]; [|discriminate]. destruct (Nat.eqb_spec (length ps) (length ks)) as [E2|E2]; [|discriminate]. cbn [negb orb].
  destruct (existsb _ ds); [discriminate|]. destruct (existsb _ ps); [discriminate|]. destruct (existsb _ ks); [discriminate|]. intro H'. injection H' as <-. auto.
Qed.
Lemma zip3_parts : forall ds ps ks, length ds = length ps -> length ps = length ks -> map t_delay (zip3 ds ps ks) = ds /\ map t_power (zip3 ds ps ks) = ps /\ map t_rice (zip3 ds ps ks) = ks.
Proof.
  induction ds as [|d ds IH]; intros [|p ps] [|k ks] E1 E2; try discriminate; [auto|]. cbn in E1, E2. destruct (IH ps ks) as (A & B & C); [lia|lia|]. cbn [zip3 map t_delay t_power t_rice]. rewrite A, B, C. auto.
Qed.

(** ** Profile D *)
Lemma ten_power : forall x n m, (0 < m)%nat -> 0 < x -> x ^ m * 10 ^ n <= 1 -> x <= Rpower 10 (- (INR n / INR m)).
Proof.
  intros x n m M X H. assert (M' : 0 < INR m) by (apply lt_0_INR; exact M). destruct (Rle_lt_dec x (Rpower 10 (- (INR n / INR m)))) as [L|L]; [exact L|]. exfalso.
  assert (P : Rpower 10 (- (INR n / INR m)) ^ m < x ^ m).
  { clear H. destruct m as [|m]; [lia|]. clear M M'. assert (P0 : 0 < Rpower 10 (- (INR n / INR (S m)))) by apply exp_pos. set (y := Rpower 10 (- (INR n / INR (S m)))) in *. clearbody y. induction m as [|m IH]; [cbn; lra|]. cbn [pow] in *. apply Rmult_gt_0_lt_compat; [|exact X|exact L|exact IH]. apply Rlt_gt. pose proof (pow_lt y (S m) P0). exact H. }
  rewrite <- Rpower_pow in P by apply exp_pos. rewrite Rpower_mult in P. replace (- (INR n / INR m) * INR m) with (- INR n) in P by (field; lra). rewrite Rpower_Ropp, Rpower_pow in P by lra.
  assert (T : 0 < 10 ^ n) by (apply pow_lt; lra). apply (Rmult_lt_compat_r _ _ _ T) in P. rewrite Rinv_l in P by lra. lra.
Qed.
Lemma less_loss : forall a b, a <= b -> Rpower 10 (- b) <= Rpower 10 (- a).
Proof. intros a b H. apply Rle_Rpower; lra. Qed.
Lemma tdl_d_first : nth 0 (normalised tdl_d_power_db) 0 < 0.53.
Proof.
  unfold normalised, tdl_d_power_db. cbv zeta. cbn [map nth fold_right].
  assert (S : forall x, Rpower 10 (x / 10) = Rpower 10 (-13.5 / 10) * Rpower 10 ((x - -13.5) / 10)). { intro x. rewrite <- Rpower_plus. f_equal. field. }
  set (P := Rpower 10 (-13.5 / 10)) in *. assert (P0 : 0 < P) by apply exp_pos.
  assert (G : forall x (n : nat) y, 0 < y -> y ^ 10 * 10 ^ n <= 1 -> -13.5 - INR n <= x -> y * P <= Rpower 10 (x / 10)).
  { intros x n y Y H L. rewrite S, Rmult_comm. apply Rmult_le_compat_l; [lra|]. eapply Rle_trans; [apply (ten_power y n 10); [lia|exact Y|exact H]|]. apply Rle_Rpower; [lra|]. replace (INR 10) with 10 by (cbn; lra). lra. }
  pose proof (G (-17.9) 5%nat 0.31 ltac:(lra) ltac:(lra) ltac:(cbn; lra)) as G1.
  pose proof (G (-18.8) 7%nat 0.199 ltac:(lra) ltac:(lra) ltac:(cbn; lra)) as G2.
  pose proof (G (-20.1) 7%nat 0.199 ltac:(lra) ltac:(lra) ltac:(cbn; lra)) as G3.
  pose proof (G (-21) 9%nat 0.125 ltac:(lra) ltac:(lra) ltac:(cbn; lra)) as G4.
  pose proof (G (-21.9) 9%nat 0.125 ltac:(lra) ltac:(lra) ltac:(cbn; lra)) as G5.
  pose proof (exp_pos (-22.8 / 10 * ln 10)) as Z1. fold (Rpower 10 (-22.8 / 10)) in Z1. pose proof (exp_pos (-22.9 / 10 * ln 10)) as Z2. fold (Rpower 10 (-22.9 / 10)) in Z2.
  pose proof (exp_pos (-27.8 / 10 * ln 10)) as Z3. fold (Rpower 10 (-27.8 / 10)) in Z3. pose proof (exp_pos (-23.6 / 10 * ln 10)) as Z4. fold (Rpower 10 (-23.6 / 10)) in Z4.
  pose proof (exp_pos (-24.8 / 10 * ln 10)) as Z5. fold (Rpower 10 (-24.8 / 10)) in Z5. pose proof (exp_pos (-30 / 10 * ln 10)) as Z6. fold (Rpower 10 (-30 / 10)) in Z6. pose proof (exp_pos (-27.7 / 10 * ln 10)) as Z7. fold (Rpower 10 (-27.7 / 10)) in Z7.
  match goal with |- P / ?d < _ => assert (D : P / 0.53 < d); [|apply (Rmult_lt_reg_r d); [lra|]; replace (P / d * d) with P by (field; lra); lra] end. lra.
Qed.
Lemma rice_split : forall k n, 0 <= k -> let '(s, d) := rice_gains (Some k) n in s ^ 2 = k / (1 + k).
Proof. intros k n K. unfold rice_gains. cbn [pow]. rewrite Rmult_1_r. apply sqrt_sqrt. apply Rmult_le_pos; [exact K|]. left. apply Rinv_0_lt_compat. lra. Qed.
Lemma tdl_d_specular : forall rms n los u c w, make_tdl tdl_d_delays tdl_d_power_db tdl_d_rice_factors rms n los u = Ok c -> path_power (sample_paths c w) = 1 /\ specular_power (sample_paths c w) < 1 / 2.
Proof.
  intros rms n los u c w. unfold make_tdl. destruct (Rlt_dec rms 0); [discriminate|]. intro H. destruct (make_fading_inv _ _ _ _ _ _ _ H) as (_ & L1 & L2 & E). subst c.
  destruct (zip3_parts _ _ _ L1 L2) as (_ & PP & _). unfold path_power, specular_power. rewrite sampled_powers. cbn [c_taps]. set (l := zip3 _ _ _) in *.
  assert (N : tdl_d_power_db <> []) by discriminate. destruct (normalised_sum _ N) as [N1 N2]. split.
  - rewrite (total_perm _ _ (Permutation_sym (Permutation_map t_power (sort_perm l)))). rewrite PP. exact N1.
  - rewrite (sampled_map _ (fun t => t_power t * fst (rice_gains (t_rice t) n) ^ 2)).
    2:{ intros i t. unfold sample_path. cbn [c_drawn]. destruct (rice_gains (t_rice t) n). reflexivity. }
    cbn [c_taps]. rewrite (total_perm _ _ (Permutation_sym (Permutation_map _ (sort_perm l)))). clear PP. pose proof tdl_d_first as F. unfold l. clear l H L1 L2 N1 N2.
    assert (M : forall i, In i (seq 0 13) -> exists z, nth_error (normalised tdl_d_power_db) i = Some z). { intros i I. apply in_seq in I. destruct (nth_error (normalised tdl_d_power_db) i) eqn:Q; [eauto|]. apply nth_error_None in Q. cbn in Q. lia. }
    assert (LP : length (normalised tdl_d_power_db) = 13%nat) by reflexivity. clear M. destruct (normalised tdl_d_power_db) as [|p0 ps]; [discriminate|]. do 13 (destruct ps as [|? ps]; [try discriminate|]); [|discriminate].
    cbn [nth] in F. unfold tdl_d_delays, tdl_d_rice_factors. cbn [map repeat zip3 t_power t_rice total].
    pose proof (rice_split 0 n ltac:(lra)) as R0. pose proof (rice_split 13.3 n ltac:(lra)) as R1. destruct (rice_gains (Some 0) n) as [a b]. destruct (rice_gains (Some 13.3) n) as [a' b']. cbn [fst]. rewrite R0, R1. lra.
Qed.
