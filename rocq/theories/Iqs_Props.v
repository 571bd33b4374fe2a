(** Properties of split streams *)
From Coq Require Import Reals Bool Arith Lia Lra.
From Coquelicot Require Import Complex.
From Verif Require Import Base BaseLemmas Cplx Cplx_Proofs Iqs_Model Iqs_Spec Iqs_Proofs.
Open Scope R_scope.

(** Splitting streams onto twice as many ports transmits their real and imaginary parts, and recombining them recovers the magnitude of
    all samples, whatever angles are measured, unless a real part is zero: then nothing is recovered *)
Theorem C133_magnitudes : forall x theta, exists y, split x (2 * streams x) = Ok y /\ streams y = (2 * streams x)%nat /\ width y = width x /\
  (forall r i, (r < streams x)%nat -> at_ y (2 * r) i = RtoC (Re (at_ x r i)) /\ at_ y (2 * r + 1) i = RtoC (Im (at_ x r i))) /\
  ((forall r i, (r < streams x)%nat -> (i < width x)%nat -> Re (at_ x r i) <> 0) ->
     exists z, combine theta y = Ok (Some z) /\ streams z = streams x /\ width z = width x /\ forall r i, (r < streams x)%nat -> Cmod (at_ z r i) = Cmod (at_ x r i)) /\
  (forall r i, (r < streams x)%nat -> (i < width x)%nat -> Re (at_ x r i) = 0 -> combine theta y = Ok None).
Proof.
  intros x theta. destruct (split_even x (streams x) eq_refl) as (y & E & S1 & W & A). exists y. split; [exact E|]. split; [exact S1|]. split; [exact W|]. split; [exact A|]. split.
  - intro N. destruct (combine_even theta y (streams x) S1) as (z & Ez & Sz & Wz & Az).
    + intros r i Hr Hi. rewrite W in Hi. rewrite (proj1 (A r i Hr)). intro Q. apply RtoC_inj in Q. exact (N r i Hr Hi Q).
    + exists z. split; [exact Ez|]. split; [exact Sz|]. split; [congruence|]. intros r i Hr. rewrite (Az r i Hr), Cmod_mult, unit_mod, Rmult_1_r, Cmod_R, Rabs_pos_eq by apply sqrt_pos. rewrite (proj1 (A r i Hr)), (proj2 (A r i Hr)). apply split_modulus.
  - intros r i Hr Hi Z. unfold combine. rewrite S1. destruct (even_halves (streams x)) as (E1 & E2 & _). rewrite E1, E2, Nat.eqb_refl. cbn [orb]. assert (K : (if Nat.eqb (streams x) 1 then streams x else streams x) = streams x) by (destruct (Nat.eqb _ 1); reflexivity). rewrite K.
    match goal with |- context [if any_below ?p (streams x) then _ else _] => assert (B : any_below p (streams x) = true) end.
    { apply any_below_true with r; [exact Hr|]. apply any_below_true with i; [congruence|]. assert (F : (if Nat.eqb (streams x) 1 then 0%nat else r) = r) by (destruct (Nat.eqb_spec (streams x) 1); [lia|reflexivity]). rewrite F, (proj1 (A r i Hr)). fold (Re (at_ x r i)). rewrite Z, Cmod_0. destruct (Req_EM_T 0 0); [reflexivity|contradiction]. }
    rewrite B. reflexivity.
Qed.
Print Assumptions C133_magnitudes.
Definition pair_of_samples : sig := Sig 1 2 (fun _ i => if Nat.eqb i 0 then (-1, 1) else (1, 1)).
Example C133_magnitudes_met : forall r i, (r < streams pair_of_samples)%nat -> (i < width pair_of_samples)%nat -> Re (at_ pair_of_samples r i) <> 0.
Proof. intros r i _ _. unfold pair_of_samples, Re. cbn [at_]. destruct (Nat.eqb i 0); cbn [fst]; lra. Qed.
(** If all second parts lag their first parts by the same angle, recombined samples have the phases of the first parts *)
Theorem C133_phases_of_first_parts : forall y theta k b, streams y = (2 * k)%nat -> (0 < k)%nat -> (0 < width y)%nat -> - PI < b < PI -> angles theta y ->
  (forall r i, (r < k)%nat -> (i < width y)%nat -> at_ y (2 * r) i <> RtoC 0 /\ exists c, 0 < c /\ at_ y (2 * r + 1) i = (RtoC c * cis b * at_ y (2 * r) i)%C) ->
  exists z, combine theta y = Ok (Some z) /\ forall r i, (r < k)%nat -> (i < width y)%nat ->
    at_ z r i = (RtoC (sqrt (Cmod (at_ y (2 * r) i) ^ 2 + Cmod (at_ y (2 * r + 1) i) ^ 2) / Cmod (at_ y (2 * r) i)) * at_ y (2 * r) i)%C.
Proof.
  intros y theta k b S1 Hk Hw Hb HA H. destruct (combine_even theta y k S1 (fun r i Hr Hi => proj1 (H r i Hr Hi))) as (z & Ez & _ & _ & Az). exists z. split; [exact Ez|]. intros r i Hr Hi. rewrite (Az r i Hr).
  assert (M : mean theta k (width y) = b). { apply mean_const; [exact Hk|exact Hw|]. intros r' i' Hr' Hi'. destruct (H r' i' Hr' Hi') as (N & c & Hc & Ec). destruct (HA r' i') as (B & m & Hm & Em); [rewrite S1, (proj1 (proj2 (even_halves k))); exact Hr'|exact Hi'|]. apply (same_angle _ b m c (at_ y (2 * r') i') B Hb Hm Hc N). congruence. }
  destruct (H r i Hr Hi) as (N & c & Hc & Ec). rewrite M. replace (cis (- b) * at_ y (2 * r + 1) i + at_ y (2 * r) i)%C with (RtoC (1 + c) * at_ y (2 * r) i)%C.
  - rewrite unit_pos by lra. rewrite Ec at 1. rewrite Ec. set (s := sqrt _). set (p := at_ y (2 * r) i) in *. unfold unit_of. destruct (Req_EM_T (Cmod p) 0) as [Z|Z]; [apply Cmod_eq_0 in Z; contradiction|]. rewrite RtoC_div by exact Z. unfold Cdiv. ring.
  - rewrite Ec. transitivity (RtoC c * (cis b * cis (- b)) * at_ y (2 * r) i + at_ y (2 * r) i)%C; [rewrite cis_opp, RtoC_plus|]; ring.
Qed.
Print Assumptions C133_phases_of_first_parts.
Example C133_phases_of_first_parts_met : exists y, streams y = 2%nat /\ width y = 1%nat /\ angles (fun _ _ => 1) y /\ at_ y 1 0 = (RtoC 2 * cis 1 * at_ y 0 0)%C.
Proof.
  exists (Sig 2 1 (fun r _ => if Nat.eqb r 0 then RtoC 1 else (RtoC 2 * cis 1)%C)). split; [reflexivity|]. split; [reflexivity|]. split; [|cbn [at_ Nat.eqb]; ring]. intros r i Hr Hi. pose proof PI2_1. cbn [streams width] in *. replace r with 0%nat by (cbn in Hr; lia). split; [lra|]. exists 2. split; [lra|]. cbn [at_ Nat.eqb Nat.mul Nat.add]. ring.
Qed.
(** Thus samples with parts of equal sign lose their phases *)
Theorem C133_equal_signs_refuted : forall x theta y, (0 < streams x)%nat -> (0 < width x)%nat -> split x (2 * streams x) = Ok y -> angles theta y ->
  (forall r i, (r < streams x)%nat -> (i < width x)%nat -> 0 < Re (at_ x r i) * Im (at_ x r i)) ->
  exists z, combine theta y = Ok (Some z) /\ forall r i, (r < streams x)%nat -> (i < width x)%nat -> at_ z r i = RtoC (if Rlt_dec 0 (Re (at_ x r i)) then Cmod (at_ x r i) else - Cmod (at_ x r i)) /\ at_ z r i <> at_ x r i.
Proof.
  intros x theta y H1 H2 E HA H. destruct (split_even x (streams x) eq_refl) as (y' & E' & S1 & W & A). assert (y' = y) by congruence. subst y'. pose proof PI_RGT_0 as PP.
  destruct (C133_phases_of_first_parts y theta (streams x) 0 S1 H1) as (z & Ez & Az); [lia|lra|exact HA| |].
  - intros r i Hr Hi. rewrite W in Hi. specialize (H r i Hr Hi). unfold Re, Im in H. destruct (A r i Hr) as [A1 A2]. rewrite A1, A2. split; [intro Q; apply RtoC_inj in Q; rewrite Q in H; lra|]. assert (N : fst (at_ x r i) <> 0) by (intro Q; rewrite Q in H; lra). exists (snd (at_ x r i) / fst (at_ x r i)). split.
    + replace (snd (at_ x r i) / fst (at_ x r i)) with (fst (at_ x r i) * snd (at_ x r i) * / (fst (at_ x r i) * fst (at_ x r i))) by (field; exact N). apply Rmult_lt_0_compat; [exact H|]. apply Rinv_0_lt_compat. nra.
    + rewrite cis_0, Cmult_1_r, <- RtoC_mult. f_equal. field. exact N.
  - exists z. split; [exact Ez|]. intros r i Hr Hi. assert (V : at_ z r i = RtoC (if Rlt_dec 0 (Re (at_ x r i)) then Cmod (at_ x r i) else - Cmod (at_ x r i))).
    + rewrite Az by (try exact Hr; rewrite W; exact Hi). destruct (A r i Hr) as [A1 A2]. rewrite A1, A2, split_modulus. specialize (H r i Hr Hi). unfold Re, Im in *. assert (N : fst (at_ x r i) <> 0) by (intro Q; rewrite Q in H; lra). rewrite <- RtoC_mult, Cmod_R. f_equal. destruct (Rlt_dec 0 (fst (at_ x r i))) as [P|P]; [rewrite Rabs_pos_eq by lra|rewrite Rabs_left by lra]; field; exact N.
    + split; [exact V|]. rewrite V. intro Q. specialize (H r i Hr Hi). apply (f_equal snd) in Q. unfold Re, Im in H. cbn [snd RtoC] in Q. rewrite <- Q in H. lra.
Qed.
Print Assumptions C133_equal_signs_refuted.
Example C133_equal_signs_refuted_met : exists y, split (Sig 1 1 (fun _ _ => (3, 4))) 2 = Ok y /\ angles (fun _ _ => 0) y.
Proof.
  eexists. split; [reflexivity|]. intros r i Hr Hi. pose proof PI_RGT_0. split; [lra|]. cbn [streams width] in *. replace r with 0%nat by (cbn in Hr; lia). exists (4 / 3). split; [lra|]. cbn [at_ Nat.even Nat.mul Nat.add fst snd Nat.div Nat.divmod streams Nat.eqb]. rewrite cis_0, Cmult_1_r, <- RtoC_mult. f_equal. field.
Qed.
(** If no measured angle is negative, as with positive real parts, no sample with an imaginary part is recovered *)
Theorem C133_positive_angles_refuted : forall x theta y z r i, (forall r i, (r < streams x)%nat -> (i < width x)%nat -> 0 <= theta r i <= PI /\ Re (at_ x r i) <> 0) ->
  split x (2 * streams x) = Ok y -> combine theta y = Ok (Some z) -> (r < streams x)%nat -> (i < width x)%nat -> Im (at_ x r i) <> 0 -> at_ z r i <> at_ x r i.
Proof.
  intros x theta y z r i H E Ez Hr Hi HI. destruct (split_even x (streams x) eq_refl) as (y' & E' & S1 & W & A). assert (y' = y) by congruence. subst y'. destruct (combine_even theta y (streams x) S1) as (z' & Ez' & _ & _ & Az).
  { intros r' i' Hr' Hi'. rewrite W in Hi'. rewrite (proj1 (A r' i' Hr')). intro Q. apply RtoC_inj in Q. apply (proj2 (H r' i' Hr' Hi')). exact Q. }
  assert (z' = z) by congruence. subst z'. rewrite (Az r i Hr). destruct (A r i Hr) as [A1 A2]. rewrite A1, A2, split_modulus. assert (M : 0 <= mean theta (streams x) (width y) <= PI). { apply mean_between; [lia|lia|]. intros r' i' Hr' Hi'. apply H; [exact Hr'|congruence]. }
  set (phi := mean theta (streams x) (width y)) in *. destruct (at_ x r i) as [a b] eqn:EX. unfold Im in HI. cbn [fst snd] in *.
  assert (SP : 0 <= sin phi) by (apply sin_ge_0; lra). unfold unit_of. destruct (Req_EM_T _ 0) as [Z|Z].
  - intro Q. apply (f_equal snd) in Q. cbn in Q. lra.
  - set (w := Cmod (cis (- phi) * RtoC b + RtoC a)%C) in *. intro Q. assert (WP : 0 < w) by (pose proof (Cmod_ge_0 (cis (- phi) * RtoC b + RtoC a)%C); fold w in H0; lra).
    assert (Q2 : (RtoC (Cmod (a, b)) * (cis (- phi) * RtoC b + RtoC a))%C = ((a, b) * RtoC w)%C). { rewrite <- Q at 2. field. intro F. apply RtoC_inj in F. lra. }
    apply (f_equal snd) in Q2. unfold cis in Q2. cbn in Q2. rewrite sin_neg in Q2. pose proof (Cmod_ge_0 (a, b)) as CP. set (m := Cmod (a, b)) in *. assert (Q3 : b * (m * sin phi + w) = 0) by lra. apply Rmult_integral in Q3. destruct Q3 as [Q3|Q3]; [contradiction|]. pose proof (Rmult_le_pos _ _ CP SP). lra.
Qed.
Print Assumptions C133_positive_angles_refuted.
Definition one_sample : sig := Sig 1 1 (fun _ _ => (3, -4)).
Example C133_positive_angles_refuted_met : (forall r i, 0 <= (fun _ _ : nat => PI) r i <= PI /\ Re (at_ one_sample r i) <> 0) /\ Im (at_ one_sample 0 0) <> 0.
Proof. pose proof PI_RGT_0. split; [intros r i|]; unfold Re, Im, one_sample; cbn; lra. Qed.
(** All samples are recovered if the mean of all angles happens to be a quarter of a turn backwards *)
Theorem C133_quarter_turn : forall x theta y, (forall r i, (r < streams x)%nat -> (i < width x)%nat -> Re (at_ x r i) <> 0) ->
  split x (2 * streams x) = Ok y -> mean theta (streams x) (width x) = - (PI / 2) -> exists z, combine theta y = Ok (Some z) /\ streams z = streams x /\ forall r i, (r < streams x)%nat -> at_ z r i = at_ x r i.
Proof.
  intros x theta y H E HM. destruct (split_even x (streams x) eq_refl) as (y' & E' & S1 & W & A). assert (y' = y) by congruence. subst y'. destruct (combine_even theta y (streams x) S1) as (z & Ez & Sz & _ & Az).
  { intros r' i' Hr' Hi'. rewrite W in Hi'. rewrite (proj1 (A r' i' Hr')). intro Q. apply RtoC_inj in Q. apply (H r' i' Hr' Hi'). exact Q. }
  exists z. split; [exact Ez|]. split; [exact Sz|]. intros r i Hr. rewrite (Az r i Hr). destruct (A r i Hr) as [A1 A2]. rewrite A1, A2, split_modulus, W, HM, Ropp_involutive. assert (C2 : (cis (PI / 2) * RtoC (snd (at_ x r i)) + RtoC (fst (at_ x r i)))%C = at_ x r i). { unfold cis. rewrite cos_PI2, sin_PI2. apply C_ext; cbn; ring. } rewrite C2. apply mod_unit.
Qed.
Print Assumptions C133_quarter_turn.
Example C133_quarter_turn_met : exists y, split pair_of_samples 2 = Ok y /\ angles (fun _ i => if Nat.eqb i 0 then - PI else 0) y /\ mean (fun _ i => if Nat.eqb i 0 then - PI else 0) 1 2 = - (PI / 2).
Proof.
  eexists. split; [reflexivity|]. pose proof PI_RGT_0 as PP. split.
  - intros r i Hr Hi. cbn [streams width pair_of_samples] in *. replace r with 0%nat by (cbn in Hr; lia). split; [destruct (Nat.eqb i 0); lra|]. exists 1. split; [lra|]. cbn [at_ Nat.even Nat.mul Nat.add Nat.div Nat.divmod streams Nat.eqb pair_of_samples fst snd]. unfold cis. destruct (Nat.eqb i 0); cbn [fst snd]; [rewrite cos_neg, sin_neg, cos_PI, sin_PI|rewrite cos_0, sin_0]; apply C_ext; cbn; ring.
  - unfold mean. cbn [rsum Nat.eqb INR]. field.
Qed.
(** Several streams are split onto twice as many ports only; a single stream is split onto any number of ports, repeatedly.  With an odd
    number of ports other than three, the number of streams asked for cannot be split; odd numbers of streams from five cannot be recombined *)
Theorem C133_ports : forall x outputs theta,
  ((2 <= streams x)%nat -> (exists y, split x outputs = Ok y) <-> outputs = (2 * streams x)%nat) /\
  (streams x = 1%nat -> exists y, split x outputs = Ok y /\ streams y = outputs /\ forall r i, at_ y r i = RtoC (if Nat.even r then Re (at_ x 0 i) else Im (at_ x 0 i))) /\
  (forall k, outputs = (2 * k + 1)%nat -> k <> 1%nat -> streams x = half_streams outputs -> split x outputs = Raise ValueError) /\
  (forall k, streams x = (2 * k + 1)%nat -> (2 <= k)%nat -> combine theta x = Raise ValueError).
Proof.
  intros x outputs theta. split; [|split; [|split]].
  - intro H. split.
    + intros (y & E). unfold split, fits in E. rewrite (proj2 (Nat.eqb_neq (streams x) 1)) in E by lia. rewrite !orb_false_r in E. destruct (Nat.eqb_spec (streams x) ((outputs + 1) / 2)) as [E1|]; [|discriminate]. destruct (Nat.eqb_spec (streams x) (outputs / 2)) as [E2|]; [|discriminate]. pose proof (Nat.div_mod (outputs + 1) 2 ltac:(lia)). pose proof (Nat.div_mod outputs 2 ltac:(lia)). pose proof (Nat.mod_upper_bound (outputs + 1) 2 ltac:(lia)). pose proof (Nat.mod_upper_bound outputs 2 ltac:(lia)). lia.
    + intros ->. destruct (split_even x (streams x) eq_refl) as (y & E & _). exists y. exact E.
  - intro H. unfold split, fits. rewrite H. cbn [Nat.eqb orb]. rewrite !orb_true_r. cbn [andb]. eexists. split; [reflexivity|]. split; [reflexivity|]. intros r i. cbn [at_]. destruct (Nat.even r); reflexivity.
  - intros k -> Hk Hs. unfold half_streams in Hs. destruct (even_halves k) as (E1 & E2 & E3). rewrite E1 in Hs. unfold split, fits. rewrite E3, Hs. rewrite (proj2 (Nat.eqb_neq k 1) Hk), (proj2 (Nat.eqb_neq k (S k))) by lia. reflexivity.
  - intros k Hs Hk. destruct (even_halves k) as (E1 & E2 & E3). unfold combine. rewrite Hs, E3, E1. rewrite (proj2 (Nat.eqb_neq (S k) k)), (proj2 (Nat.eqb_neq (S k) 1)), (proj2 (Nat.eqb_neq k 1)) by lia. reflexivity.
Qed.
Print Assumptions C133_ports.
Example C133_ports_met : split (Sig 2 1 (fun _ _ => RtoC 1)) 5 = Raise ValueError.
Proof. reflexivity. Qed.
