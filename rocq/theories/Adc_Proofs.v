(** Lemmas about quantizers, gain control and frames of converters. *)
From Coq Require Import Reals List Arith Bool ZArith Lia Lra Psatz.
From Verif Require Import Base BaseLemmas Adc_Model Adc_Spec.
Import ListNotations.
Open Scope R_scope.

Lemma floor_bounds x : floor x <= x < floor x + 1.
Proof. unfold floor. pose proof (base_Int_part x). lra. Qed.
Lemma Int_part_unique x n : IZR n <= x < IZR n + 1 -> Int_part x = n.
Proof.
  intro H. pose proof (floor_bounds x) as B. unfold floor in B.
  assert (A : IZR n < IZR (Int_part x) + 1) by lra. assert (C : IZR (Int_part x) < IZR n + 1) by lra.
  rewrite <- plus_IZR in A, C. apply lt_IZR in A, C. lia.
Qed.
Lemma Int_part_mono x y : x <= y -> (Int_part x <= Int_part y)%Z.
Proof.
  intro H. pose proof (floor_bounds x) as A. pose proof (floor_bounds y) as B. unfold floor in *.
  assert (C : IZR (Int_part x) < IZR (Int_part y) + 1) by lra. rewrite <- plus_IZR in C. apply lt_IZR in C. lia.
Qed.

Lemma abs_le_inv x a : Rabs x <= a -> - a <= x <= a.
Proof. unfold Rabs. destruct (Rcase_abs x); lra. Qed.

(** *** Uniform quantizers: levels [step * (k + d)], [lo <= k <= hi] *)
Section Uniform.
Variables (step c d : R) (lo hi : Z).
Hypothesis Hstep : 0 < step.
Hypothesis Hcd : c + d = / 2.
Hypothesis Hsym : IZR lo + d = - (IZR hi + d).
Hypothesis Hfull : step * (IZR hi + d + / 2) = 1.
Hypothesis Hlohi : (lo <= hi)%Z.

Definition index (x : R) : Z := Z.max lo (Z.min (Int_part (x / step + c)) hi).
Definition uq (x : R) : R := step * (IZR (index x) + d).

Lemma index_range x : (lo <= index x <= hi)%Z.
Proof. unfold index. lia. Qed.
Lemma div_step x : step * (x / step) = x.
Proof. field. lra. Qed.

Lemma uq_error x : Rabs x <= 1 -> Rabs (uq x - x) <= step / 2.
Proof.
  intro H. set (u := x / step). assert (Ex : x = step * u) by (unfold u; field; lra).
  assert (Hu : - (IZR hi + d + / 2) <= u <= IZR hi + d + / 2).
  { rewrite <- Hfull, Ex in H. apply abs_le_inv in H. split; apply (Rmult_le_reg_l step); lra. }
  pose proof (floor_bounds (u + c)) as B. unfold floor in B.
  unfold uq, index. fold u. set (n := Int_part (u + c)) in *.
  replace (step * (IZR (Z.max lo (Z.min n hi)) + d) - x) with (step * (IZR (Z.max lo (Z.min n hi)) + d - u)) by (rewrite Ex; ring).
  rewrite Rabs_mult, (Rabs_right step) by lra.
  replace (step / 2) with (step * / 2) by field. apply Rmult_le_compat_l; [lra|].
  apply Rabs_le.
  destruct (Z_lt_le_dec n lo) as [H1|H1].
  - exfalso. assert (N : IZR n + 1 <= IZR lo) by (rewrite <- plus_IZR; apply IZR_le; lia). lra.
  - destruct (Z_lt_le_dec hi n) as [H2|H2].
    + assert (N : IZR hi + 1 <= IZR n) by (rewrite <- plus_IZR; apply IZR_le; lia).
      replace (Z.max lo (Z.min n hi)) with hi by lia. lra.
    + replace (Z.max lo (Z.min n hi)) with n by lia. lra.
Qed.

Lemma uq_above x : 1 <= x -> uq x = 1 - step / 2.
Proof.
  intro H. set (u := x / step). assert (Hu : IZR hi + d + / 2 <= u).
  { apply (Rmult_le_reg_l step); [exact Hstep|]. unfold u. rewrite div_step, Hfull. exact H. }
  pose proof (floor_bounds (u + c)) as B. unfold floor in B.
  assert (N : (hi <= Int_part (u + c))%Z).
  { assert (IZR hi < IZR (Int_part (u + c)) + 1) by lra. rewrite <- plus_IZR in H0. apply lt_IZR in H0. lia. }
  unfold uq, index. fold u. replace (Z.max lo (Z.min (Int_part (u + c)) hi)) with hi by lia. rewrite <- Hfull. field.
Qed.
Lemma uq_below x : x <= - 1 -> uq x = - (1 - step / 2).
Proof.
  intro H. set (u := x / step). assert (Hu : u <= - (IZR hi + d + / 2)).
  { apply (Rmult_le_reg_l step); [exact Hstep|]. unfold u. rewrite div_step. lra. }
  pose proof (floor_bounds (u + c)) as B. unfold floor in B.
  assert (N : (Int_part (u + c) <= lo)%Z).
  { apply le_IZR. lra. }
  unfold uq, index. fold u. replace (Z.max lo (Z.min (Int_part (u + c)) hi)) with lo by lia. rewrite Hsym. 
  replace (step / 2) with (step * / 2) by field. lra.
Qed.
Lemma uq_level k : (lo <= k <= hi)%Z -> uq (step * (IZR k + d)) = step * (IZR k + d).
Proof.
  intro H. unfold uq, index. replace (step * (IZR k + d) / step + c) with (IZR k + / 2) by (rewrite <- Hcd; field; lra).
  rewrite (Int_part_unique _ k) by lra. replace (Z.max lo (Z.min k hi)) with k by lia. reflexivity.
Qed.
Lemma uq_idempotent x : uq (uq x) = uq x.
Proof. unfold uq at 2 3. apply uq_level, index_range. Qed.
Lemma uq_mono x y : x <= y -> uq x <= uq y.
Proof.
  intro H. unfold uq. apply Rmult_le_compat_l; [lra|]. apply Rplus_le_compat_r, IZR_le. unfold index.
  assert (Int_part (x / step + c) <= Int_part (y / step + c))%Z.
  { apply Int_part_mono, Rplus_le_compat_r, Rmult_le_compat_r; [apply Rlt_le, Rinv_0_lt_compat, Hstep|exact H]. }
  lia.
Qed.
Lemma uq_odd x : 1 <= Rabs x \/ (forall m : Z, x / step + c <> IZR m) -> uq (- x) = - uq x.
Proof.
  intros [H|H].
  - unfold Rabs in H. destruct (Rcase_abs x).
    + rewrite uq_above, uq_below by lra. ring.
    + rewrite uq_below, uq_above by lra. ring.
  - unfold uq, index. set (u := x / step) in *. replace (- x / step) with (- u) by (unfold u; field; lra).
    set (n := Int_part (u + c)).
    assert (B : IZR n < u + c < IZR n + 1).
    { pose proof (floor_bounds (u + c)) as B. unfold floor in B. fold n in B. specialize (H n). lra. }
    assert (E : Int_part (- u + c) = (lo + hi - n)%Z).
    { apply Int_part_unique. rewrite minus_IZR, plus_IZR. lra. }
    rewrite E. replace (Z.max lo (Z.min (lo + hi - n) hi)) with (lo + hi - Z.max lo (Z.min n hi))%Z by lia.
    rewrite minus_IZR, plus_IZR.
    replace (IZR lo + IZR hi - IZR (Z.max lo (Z.min n hi)) + d) with (- (IZR (Z.max lo (Z.min n hi)) + d)) by lra. ring.
Qed.
Lemma uq_tie x m : Rabs x < 1 -> x / step + c = IZR m -> uq (- x) = - uq x + step.
Proof.
  intros H E. apply Rabs_def2 in H. set (u := x / step) in *. assert (Ex : x = step * u) by (unfold u; field; lra).
  assert (Hu : - (IZR hi + d + / 2) < u < IZR hi + d + / 2).
  { rewrite <- Hfull, Ex in H. split; apply (Rmult_lt_reg_l step); lra. }
  assert (M : (lo < m <= hi)%Z).
  { split.
    - apply lt_IZR. lra.
    - assert (IZR m < IZR hi + 1) by lra. rewrite <- plus_IZR in H0. apply lt_IZR in H0. lia. }
  unfold uq, index. fold u. replace (- x / step) with (- u) by (unfold u; field; lra).
  rewrite (Int_part_unique (u + c) m) by lra.
  assert (E2 : - u + c = IZR (lo + hi - m + 1)) by (rewrite plus_IZR, minus_IZR, plus_IZR; lra).
  rewrite (Int_part_unique (- u + c) (lo + hi - m + 1)) by lra.
  replace (Z.max lo (Z.min (lo + hi - m + 1) hi)) with (lo + hi - m + 1)%Z by lia.
  replace (Z.max lo (Z.min m hi)) with m by lia. rewrite plus_IZR, minus_IZR, plus_IZR.
  replace (IZR lo + IZR hi - IZR m + 1 + d) with (- (IZR m + d) + 1) by lra. ring.
Qed.
Lemma uq_levels : exists levels, NoDup levels /\ length levels = Z.to_nat (hi - lo + 1) /\
  forall y, In y levels <-> exists x, uq x = y.
Proof.
  exists (map (fun i => step * (IZR (lo + Z.of_nat i) + d)) (seq 0 (Z.to_nat (hi - lo + 1)))). split; [|split].
  - apply FinFun.Injective_map_NoDup; [|apply seq_NoDup]. intros i j E.
    apply (Rmult_eq_reg_l step) in E; [|lra]. assert (E' : IZR (lo + Z.of_nat i) = IZR (lo + Z.of_nat j)) by lra.
    apply eq_IZR in E'. lia.
  - rewrite map_length, seq_length. reflexivity.
  - intro y. rewrite in_map_iff. split.
    + intros [i [<- Hi]]. apply in_seq in Hi. exists (step * (IZR (lo + Z.of_nat i) + d)). apply uq_level. lia.
    + intros [x <-]. pose proof (index_range x) as R. exists (Z.to_nat (index x - lo)). split.
      * unfold uq. do 3 f_equal. lia.
      * apply in_seq. lia.
Qed.
Lemma uq_range x : Rabs (uq x) <= 1 - step / 2.
Proof.
  pose proof (index_range x) as [R1 R2]. apply IZR_le in R1, R2. unfold uq. rewrite Rabs_mult, (Rabs_right step) by lra.
  replace (1 - step / 2) with (step * (IZR hi + d)) by (rewrite <- Hfull; field). apply Rmult_le_compat_l; [lra|].
  apply Rabs_le. lra.
Qed.
End Uniform.

(** *** The two quantizers are uniform *)
Definition half (b : nat) : Z := 2 ^ (Z.of_nat b - 1).
Lemma half_levels b : (0 < b)%nat -> num_levels b = 2 * IZR (half b).
Proof.
  intro H. unfold num_levels, half. destruct b as [|b]; [lia|].
  replace (Z.of_nat (S b) - 1)%Z with (Z.of_nat b) by lia.
  rewrite <- pow_IZR. cbn. ring.
Qed.
Lemma half_pos b : (0 < b)%nat -> (1 <= half b)%Z.
Proof. intro H. unfold half. assert (0 < 2 ^ (Z.of_nat b - 1))%Z by (apply Z.pow_pos_nonneg; lia). lia. Qed.
Lemma half_nat b : (0 < b)%nat -> Z.to_nat (2 * half b) = (2 ^ b)%nat.
Proof.
  intro H. destruct b as [|b]; [lia|]. unfold half. replace (Z.of_nat (S b) - 1)%Z with (Z.of_nat b) by lia.
  rewrite <- Z.pow_succ_r by lia. apply Nat2Z.inj. rewrite Z2Nat.id by (apply Z.pow_nonneg; lia).
  rewrite Nat2Z.inj_pow. f_equal. lia.
Qed.

Definition q_c (q : quantizer) : R := match q with MidRiser => 0 | MidTread => / 2 end.
Definition q_d (q : quantizer) : R := match q with MidRiser => / 2 | MidTread => 0 end.
Definition q_lo (b : nat) : Z := (- half b)%Z.
Definition q_hi (q : quantizer) (b : nat) : Z := match q with MidRiser => (half b - 1)%Z | MidTread => half b end.

Section Quantizer.
Variables (q : quantizer) (b : nat).
Hypothesis Hb : (0 < b)%nat.
Let step := step_of q b.

Lemma half_R : 1 <= IZR (half b).
Proof. apply IZR_le, half_pos, Hb. Qed.
Lemma q_step_pos : 0 < step.
Proof.
  pose proof half_R. unfold step, step_of. rewrite (half_levels b Hb).
  destruct q; (apply Rdiv_lt_0_compat; lra).
Qed.
Lemma q_cd : q_c q + q_d q = / 2.
Proof. destruct q; cbn; lra. Qed.
Lemma q_sym : IZR (q_lo b) + q_d q = - (IZR (q_hi q b) + q_d q).
Proof. unfold q_lo, q_hi, q_d. rewrite opp_IZR. destruct q; rewrite ?minus_IZR; lra. Qed.
Lemma q_full : step * (IZR (q_hi q b) + q_d q + / 2) = 1.
Proof.
  pose proof half_R. unfold step, step_of, q_hi, q_d. rewrite (half_levels b Hb).
  destruct q; rewrite ?minus_IZR; field; lra.
Qed.
Lemma q_lohi : (q_lo b <= q_hi q b)%Z.
Proof. pose proof (half_pos b Hb). unfold q_lo, q_hi. destruct q; lia. Qed.

Lemma quantize1_uq x : quantize1 q b x = uq step (q_c q) (q_d q) (q_lo b) (q_hi q b) x.
Proof.
  pose proof q_step_pos as Hs. pose proof q_full as HF. pose proof q_sym as HS. pose proof q_lohi as HL.
  unfold quantize1, uq, index. fold step. pose proof half_R as H1.
  destruct q; unfold q_c, q_d, q_lo, q_hi in *.
  - rewrite Rplus_0_r. unfold clip, floor. set (n := Int_part (x / step)).
    rewrite minus_IZR in HF. rewrite opp_IZR in HS.
    destruct (Z_lt_le_dec n (- half b)) as [A|A]; [|destruct (Z_lt_le_dec (half b - 1) n) as [B|B]].
    + replace (Z.max (- half b) (Z.min n (half b - 1))) with (- half b)%Z by lia.
      assert (N : IZR n + 1 <= - IZR (half b)) by (rewrite <- plus_IZR, <- opp_IZR; apply IZR_le; lia).
      rewrite Rmax_right, Rmin_left; rewrite ?opp_IZR; try nra.
    + replace (Z.max (- half b) (Z.min n (half b - 1))) with (half b - 1)%Z by lia.
      assert (N : IZR (half b) <= IZR n) by (apply IZR_le; lia).
      rewrite Rmax_left, Rmin_right; rewrite ?minus_IZR; try nra.
    + replace (Z.max (- half b) (Z.min n (half b - 1))) with n by lia.
      assert (N1 : - IZR (half b) <= IZR n) by (rewrite <- opp_IZR; apply IZR_le; lia).
      assert (N2 : IZR n <= IZR (half b) - 1) by (rewrite <- minus_IZR; apply IZR_le; lia).
      rewrite Rmax_left, Rmin_left; nra.
  - rewrite Rplus_0_r. unfold clip, floor. f_equal. f_equal.
    set (u := x / step). assert (Ex : x = step * u) by (unfold u; field; lra).
    replace 0.5 with (/ 2) by lra.
    destruct (Rle_lt_dec x (- 1)) as [A|A]; [|destruct (Rle_lt_dec x (1 - step)) as [B|B]].
    + rewrite Rmax_right, Rmin_left by nra.
      assert (E : - 1 / step + / 2 = - IZR (half b)).
      { apply (Rmult_eq_reg_l step); [|lra]. replace (step * (- 1 / step + / 2)) with (- 1 + step / 2) by (field; lra). lra. }
      rewrite (Int_part_unique (- 1 / step + / 2) (- half b)) by (rewrite opp_IZR; lra).
      pose proof (floor_bounds (u + / 2)) as F. unfold floor in F.
      assert (u <= - (IZR (half b) + 0 + / 2)) by nra.
      assert (Int_part (u + / 2) <= - half b)%Z by (apply le_IZR; rewrite opp_IZR; lra). lia.
    + rewrite Rmax_left, Rmin_left by lra. fold u.
      pose proof (floor_bounds (u + / 2)) as F. unfold floor in F.
      assert (U1 : - (IZR (half b) + 0 + / 2) < u) by nra.
      assert (U2 : u <= IZR (half b) + 0 + / 2 - 1) by nra.
      assert (- half b <= Int_part (u + / 2))%Z.
      { assert (IZR (- half b) < IZR (Int_part (u + / 2)) + 1) by (rewrite opp_IZR; lra).
        rewrite <- plus_IZR in H. apply lt_IZR in H. lia. }
      assert (Int_part (u + / 2) <= half b)%Z by (apply le_IZR; lra). lia.
    + rewrite Rmax_left, Rmin_right by lra.
      assert (E : (1 - step) / step + / 2 = IZR (half b)).
      { apply (Rmult_eq_reg_l step); [|lra]. replace (step * ((1 - step) / step + / 2)) with (1 - step + step / 2) by (field; lra). lra. }
      rewrite (Int_part_unique ((1 - step) / step + / 2) (half b)) by lra.
      pose proof (floor_bounds (u + / 2)) as F. unfold floor in F.
      assert (U : IZR (half b) + 0 + / 2 - 1 < u) by nra.
      assert (half b <= Int_part (u + / 2))%Z.
      { assert (IZR (half b) < IZR (Int_part (u + / 2)) + 1) by lra. rewrite <- plus_IZR in H. apply lt_IZR in H. lia. }
      pose proof (half_pos b Hb). lia.
Qed.
End Quantizer.

(** *** Gain control *)
Lemma fold_max l : forall a, (forall x, In x l -> x <= fold_left Rmax l a) /\ a <= fold_left Rmax l a /\
  (fold_left Rmax l a = a \/ In (fold_left Rmax l a) l).
Proof.
  induction l as [|y l IH]; intro a; cbn [fold_left].
  - split; [intros x []|]. split; [lra|left; reflexivity].
  - destruct (IH (Rmax a y)) as [A [B D]]. pose proof (Rmax_l a y). pose proof (Rmax_r a y). split; [|split].
    + intros x [<-|Hx]; [lra|apply A, Hx].
    + lra.
    + destruct D as [D|D]; [|right; right; exact D].
      rewrite D. unfold Rmax. destruct (Rle_dec a y); [right; left; reflexivity|left; reflexivity].
Qed.
Lemma max_abs_spec x : concat x <> [] -> exists m, max_abs x = Ok m /\ is_peak m (concat x).
Proof.
  intro H. unfold max_abs. destruct (concat x) as [|a l]; [contradiction|]. cbn [map].
  exists (fold_left Rmax (map Rabs l) (Rabs a)). split; [reflexivity|].
  destruct (fold_max (map Rabs l) (Rabs a)) as [A [B D]]. split.
  - apply Forall_cons; [exact B|]. apply Forall_forall. intros y Hy. apply A. apply in_map. exact Hy.
  - destruct D as [D|D].
    + exists a. split; [left; reflexivity|]. symmetry. exact D.
    + apply in_map_iff in D. destruct D as [y [Ey Hy]]. exists y. split; [right; exact Hy|exact Ey].
Qed.
Lemma concat_map_map {B D} (f : B -> D) (x : list (list B)) : concat (map (map f) x) = map f (concat x).
Proof. induction x as [|r x IH]; [reflexivity|]. cbn. rewrite map_app, IH. reflexivity. Qed.
Lemma real_concat s : concat (real s) = map fst (concat s).
Proof. apply concat_map_map. Qed.
Lemma imag_concat s : concat (imag s) = map snd (concat s).
Proof. apply concat_map_map. Qed.
Lemma peak_nonneg m l : is_peak m l -> 0 <= m.
Proof. intros [_ [x [_ <-]]]. apply Rabs_pos. Qed.
Lemma amplitudes_scale k s : amplitudes (scale k s) = map (fun x => x * k) (amplitudes s).
Proof.
  unfold amplitudes. rewrite !real_concat, !imag_concat, map_app, !map_map.
  unfold scale. rewrite concat_map_map, !map_map. reflexivity.
Qed.

Section Rms.
Variable norm2 : list (list R) -> R.
Lemma agc_max_gain backoff s : concat s <> [] ->
  exists m, is_peak m (amplitudes s) /\
    estimate_gain norm2 (Automatic MaxAmplitude backoff) s = Ok (if Rlt_dec 0 m then 1 / (m * backoff) else 1).
Proof.
  intro H.
  destruct (max_abs_spec (real s)) as [r [Er [Pr1 Pr2]]]; [rewrite real_concat; destruct (concat s); [contradiction|discriminate]|].
  destruct (max_abs_spec (imag s)) as [i [Ei [Pi1 Pi2]]]; [rewrite imag_concat; destruct (concat s); [contradiction|discriminate]|].
  pose proof (peak_nonneg r _ (conj Pr1 Pr2)) as Nr. pose proof (Rmax_l r i) as M1. pose proof (Rmax_r r i) as M2.
  exists (Rmax r i). split.
  - unfold amplitudes. split.
    + apply Forall_app. split.
      * revert Pr1. apply Forall_impl. intros x Hx. lra.
      * revert Pi1. apply Forall_impl. intros x Hx. lra.
    + unfold Rmax. destruct (Rle_dec r i).
      * destruct Pi2 as [x [Hx Ex]]. exists x. split; [apply in_or_app; right; exact Hx|exact Ex].
      * destruct Pr2 as [x [Hx Ex]]. exists x. split; [apply in_or_app; left; exact Hx|exact Ex].
  - cbn [estimate_gain]. rewrite Er, Ei. cbn [bind]. unfold gain_from. rewrite (Rmax_left (Rmax r i) 0) by lra. reflexivity.
Qed.
End Rms.

(** *** Norms *)
Lemma energy_nonneg x : 0 <= energy x.
Proof.
  unfold energy, dot. induction x as [|a x IH]; cbn; [lra|]. pose proof (Rle_0_sqr a). unfold Rsqr in *. lra.
Qed.
Lemma cauchy_schwarz x : forall y, length x = length y -> dot x y ^ 2 <= energy x * energy y.
Proof.
  induction x as [|a x IH]; intros [|c y] L; cbn in L; try lia.
  - unfold energy, dot. cbn. lra.
  - specialize (IH y ltac:(lia)). pose proof (energy_nonneg x) as Px. pose proof (energy_nonneg y) as Py.
    assert (E1 : dot (a :: x) (c :: y) = a * c + dot x y) by reflexivity.
    assert (E2 : energy (a :: x) = a * a + energy x) by reflexivity.
    assert (E3 : energy (c :: y) = c * c + energy y) by reflexivity.
    rewrite E1, E2, E3. set (D := dot x y) in *. set (X := energy x) in *. set (Y := energy y) in *.
    assert (P : 0 <= a * a * Y + c * c * X) by nra.
    assert (S : (2 * (a * c * D)) ^ 2 <= (a * a * Y + c * c * X) ^ 2).
    { assert ((2 * (a * c * D)) ^ 2 <= 4 * ((a * c) ^ 2 * (X * Y))).
      { replace ((2 * (a * c * D)) ^ 2) with (4 * ((a * c) ^ 2 * D ^ 2)) by ring.
        apply Rmult_le_compat_l; [lra|]. apply Rmult_le_compat_l; [apply pow2_ge_0|exact IH]. }
      pose proof (pow2_ge_0 (a * a * Y - c * c * X)). nra. }
    assert (T : 2 * (a * c * D) <= a * a * Y + c * c * X).
    { apply Rnot_lt_le. intro N. nra. }
    nra.
Qed.
Lemma single_row_norm r n s : length r = n -> spectral_norm n [r] s -> s ^ 2 = energy r.
Proof.
  intros L [Ps [Hle [v [Lv [Ev Hv]]]]].
  assert (E1 : forall w, energy (map (fun r => dot r w) [r]) = dot r w ^ 2) by (intro w; unfold energy, dot at 1; cbn; ring).
  rewrite E1 in Hv. pose proof (cauchy_schwarz r v ltac:(lia)) as CS. rewrite Ev, Hv in CS.
  specialize (Hle r L). rewrite E1 in Hle. change (dot r r) with (energy r) in Hle.
  pose proof (energy_nonneg r) as Pr. destruct (Req_dec (energy r) 0) as [Z|Z]; [|nra].
  rewrite Z in *. nra.
Qed.

(** *** Frames *)
Lemma Forall2_map_self {B D} (P : B -> D -> Prop) (f : B -> D) l : (forall x, In x l -> P x (f x)) -> Forall2 P l (map f l).
Proof.
  induction l as [|x l IH]; intro H; [constructor|]. cbn. constructor; [apply H; left; reflexivity|].
  apply IH. intros y Hy. apply H. right. exact Hy.
Qed.
Section Frames.
Variable norm2 : list (list R) -> R.
Variables (g : gain_control) (flag : bool) (q : quantizer) (bits : option nat).

Lemma convert_shape s out : convert_frame norm2 g flag q bits s = Ok out -> map (@length _) out = map (@length _) s.
Proof.
  unfold convert_frame. destruct (estimate_gain norm2 g s) as [k|]; [|discriminate]. cbn [bind]. intro H. injection H as <-.
  assert (M : forall (f : sample -> sample) (x : signal), map (@length _) (map (map f) x) = map (@length _) x).
  { intros f x. rewrite map_map. apply map_ext. intro r. apply map_length. }
  unfold rescale. destruct flag, bits; cbn [quantize]; unfold scale; rewrite ?M; reflexivity.
Qed.
Lemma rect_lengths n (s : signal) : rectangular n s <-> map (@length _) s = repeat n (length s).
Proof.
  unfold rectangular. induction s as [|r s IH]; cbn; [split; auto|]. rewrite Forall_cons_iff, IH. split.
  - intros [-> ->]. reflexivity.
  - intro H. injection H as -> ->. auto.
Qed.
Lemma convert_rect n s out : convert_frame norm2 g flag q bits s = Ok out -> rectangular n s ->
  rectangular n out /\ length out = length s.
Proof.
  intros H R. apply convert_shape in H. assert (L : length out = length s) by (rewrite <- (map_length (@length _) out), H; apply map_length).
  split; [|exact L]. apply rect_lengths. rewrite H, L. apply rect_lengths, R.
Qed.
Lemma columns_rect a b N (s : signal) : rectangular N s -> (a <= b <= N)%nat -> rectangular (b - a) (columns a b s).
Proof.
  intros R H. apply Forall_forall. intros r Hr. apply in_map_iff in Hr. destruct Hr as [x [<- Hx]].
  pose proof (proj1 (Forall_forall _ _) R x Hx) as L. cbn in L. rewrite length_slice. lia.
Qed.
Lemma append_rect a b (s t : signal) : rectangular a s -> rectangular b t -> length s = length t ->
  rectangular (a + b) (append_columns s t) /\ length (append_columns s t) = length s /\
  (forall i j, (j <= a)%nat -> columns i j (append_columns s t) = columns i j s) /\
  columns a (a + b) (append_columns s t) = t.
Proof.
  unfold append_columns. revert t. induction s as [|x s IH]; intros [|y t] Rs Rt L; cbn in L; try lia.
  - cbn. split; [apply Forall_nil|]. auto.
  - apply Forall_cons_iff in Rs, Rt. destruct Rs as [Lx Rs], Rt as [Ly Rt].
    destruct (IH t Rs Rt ltac:(lia)) as [A [B [D E]]]. cbn [combine map]. split; [|split; [|split]].
    + apply Forall_cons; [rewrite app_length; lia|exact A].
    + cbn. rewrite B. reflexivity.
    + intros i j Hj. cbn [columns map]. f_equal; [apply slice_app_l; lia|apply D, Hj].
    + cbn [columns map]. f_equal; [|exact E]. unfold slice. replace (a + b - a)%nat with b by lia.
      rewrite <- Lx, skipn_app, skipn_all, Nat.sub_diag. cbn [skipn app]. rewrite <- Ly. apply firstn_all.
Qed.
Lemma rect_num_samples n (s : signal) : rectangular n s -> s <> [] -> num_samples s = n.
Proof. intros R H. destruct s as [|r s]; [contradiction|]. apply Forall_inv in R. exact R. Qed.

Definition frames_step (n : nat) (s : signal) (r : result signal) (f : nat) : result signal :=
  do acc <- r;
  do c <- convert_frame norm2 g flag q bits (columns (f * n) ((f + 1) * n) s);
  do c <- put_frame n c;
  Ok (append_columns acc c).
Lemma frames_prefix n N (s : signal) (c : nat -> signal) : rectangular N s -> s <> [] -> forall F,
  (F * n <= N)%nat ->
  (forall f, (f < F)%nat -> convert_frame norm2 g flag q bits (columns (f * n) ((f + 1) * n) s) = Ok (c f)) ->
  exists out, fold_left (frames_step n s) (seq 0 F) (Ok (map (fun _ => []) s)) = Ok out /\
    rectangular (F * n) out /\ length out = length s /\
    (forall f, (f < F)%nat -> columns (f * n) ((f + 1) * n) out = c f).
Proof.
  intros R HN. induction F as [|F IH]; intros HF HC.
  - exists (map (fun _ => []) s). split; [reflexivity|]. split; [|split; [apply map_length|intros f Hf; lia]].
    apply Forall_forall. intros r Hr. apply in_map_iff in Hr. destruct Hr as [x [<- _]]. reflexivity.
  - destruct IH as [acc [E [Ra [La Ca]]]]; [cbn in HF; lia|intros f Hf; apply HC; lia|].
    rewrite seq_S, fold_left_app, E. cbn [Nat.add fold_left]. unfold frames_step at 1. cbn [bind]. rewrite (HC F) by lia. cbn [bind].
    pose proof (columns_rect (F * n) ((F + 1) * n) N s R ltac:(cbn in HF; lia)) as Rc.
    replace ((F + 1) * n - F * n)%nat with n in Rc by lia.
    destruct (convert_rect n _ _ (HC F ltac:(lia)) Rc) as [Rf Lf].
    unfold columns in Lf. rewrite map_length in Lf.
    assert (Nf : num_samples (c F) = n).
    { apply rect_num_samples; [exact Rf|]. intro Z. rewrite Z in Lf. cbn in Lf. destruct s; [contradiction|discriminate]. }
    unfold put_frame. rewrite Nf, Nat.eqb_refl. cbn [bind].
    destruct (append_rect (F * n) n acc (c F) Ra Rf ltac:(lia)) as [A [B [D E']]].
    exists (append_columns acc (c F)). split; [reflexivity|]. split; [|split].
    + replace (S F * n)%nat with (F * n + n)%nat by (cbn; lia). exact A.
    + lia.
    + intros f Hf. destruct (Nat.eq_dec f F) as [->|Hne].
      * replace ((F + 1) * n)%nat with (F * n + n)%nat by lia. exact E'.
      * rewrite D by nia. apply Ca. lia.
Qed.
End Frames.
