(** C82: power amplifiers. *)
From Coq Require Import List Reals Bool Arith Lia Lra Psatz.
From Coquelicot Require Import Complex.
From Verif Require Import Base BaseLemmas Cplx Cplx_Proofs Amp_Model Amp_Spec Amp_Proofs.
Import ListNotations.
Open Scope R_scope.

Definition valid_parameters (c : characteristic) : Prop :=
  match c with
  | Linear => True
  | Clipping s => 0 <= s
  | Rapp p => 0 < p
  | Saleh aa ab _ _ => 0 <= aa /\ 0 <= ab
  | Custom i g p => length i = length g \/ length g = length p
  | Memory _ _ _ => True
  end.
(** Constructors accept exactly non-negative gains and valid parameters *)
Theorem C82_parameters : forall g c, (0 <= g /\ valid_parameters c -> construct g c = Ok (Amplifier g c)) /\ (~ (0 <= g /\ valid_parameters c) -> construct g c = Raise ValueError).
Proof.
  intros g c. unfold construct.
  assert (H : parameters_ok c = true <-> valid_parameters c).
  { destruct c as [|s|p|aa ab pa pb|i k p|r m e]; cbn [parameters_ok valid_parameters].
    - tauto.
    - destruct (Rlt_dec s 0); split; intro; try reflexivity; try discriminate; lra.
    - destruct (Rle_dec p 0); split; intro; try reflexivity; try discriminate; lra.
    - destruct (Rlt_dec aa 0); [split; [discriminate|lra]|]. destruct (Rlt_dec ab 0); [split; [discriminate|lra]|]. split; [lra|reflexivity].
    - destruct (Nat.eqb_spec (length i) (length k)), (Nat.eqb_spec (length k) (length p)); cbn; split; try tauto; try discriminate; try (intros [|]; contradiction).
    - tauto. }
  destruct (parameters_ok c).
  - pose proof (proj1 H eq_refl). destruct (Rlt_dec g 0); split; intro K; try reflexivity; try lra. exfalso. apply K. split; [lra|assumption].
  - split; intro K; [|reflexivity]. exfalso. assert (false = true) by (apply H; tauto). discriminate.
Qed.
Print Assumptions C82_parameters.
Example C82_parameters_met : 0 <= 2 /\ valid_parameters (Rapp 3).
Proof. cbn. lra. Qed.
(** All amplifiers have one port *)
Theorem C82_ports : forall pa x, length x <> 1%nat -> amplify pa x = Raise ValueError.
Proof. intros pa x H. unfold amplify. destruct (Nat.eqb_spec (length x) 1); [contradiction|reflexivity]. Qed.
Print Assumptions C82_ports.

Theorem C82_linear : forall g x, length x = 1%nat -> exists y, amplify (Amplifier g Linear) x = Ok y /\ samplewise (fun z w => w = Some (z * RtoC g)%C) x y.
Proof.
  intros g x L. apply amplify_samples; [exact L|discriminate|eexists; reflexivity|]. intro z. eexists. split; [reflexivity|]. reflexivity.
Qed.
Print Assumptions C82_linear.
(** Clipping limits the amplitude, keeps the phase and does not touch anything else *)
Theorem C82_clipping : forall g s x, 0 <= g -> 0 <= s -> length x = 1%nat -> exists y, amplify (Amplifier g (Clipping s)) x = Ok y /\
  samplewise (fun z w => exists v, w = Some v /\ Cmod v = Rmin (g * Cmod z) s /\ same_phase z v /\ (g * Cmod z <= s -> v = (z * RtoC g)%C)) x y.
Proof.
  intros g s x Hg Hs L. apply amplify_samples; [exact L|discriminate|eexists; reflexivity|]. intro z. cbn [kind gain distort]. eexists. split; [reflexivity|].
  eexists. split; [reflexivity|]. rewrite Cmod_scaled by exact Hg. destruct (Rlt_dec s (g * Cmod z)) as [H|H].
  - split; [rewrite Cmod_mult, direction_mod, Cmod_R, Rabs_pos_eq, Rmin_right by lra; lra|]. split; [|intro; lra].
    assert (N : Cmod (z * RtoC g)%C <> 0) by (rewrite Cmod_scaled by exact Hg; lra). rewrite direction_scaled by exact N.
    exists (s * / Cmod (z * RtoC g)%C * g). split.
    + apply Rmult_le_pos; [|exact Hg]. apply Rmult_le_pos; [exact Hs|]. apply Rlt_le, Rinv_0_lt_compat. rewrite Cmod_scaled by exact Hg. lra.
    + rewrite !RtoC_mult. ring.
  - split; [rewrite Cmod_scaled by exact Hg; rewrite Rmin_left; lra|]. split; [|reflexivity]. exists g. split; [exact Hg|apply Cmult_comm].
Qed.
Print Assumptions C82_clipping.
Example C82_clipping_met : 0 <= 2 /\ 0 <= 1 /\ length [[RtoC 1; RtoC 3]] = 1%nat.
Proof. cbn. repeat split; lra. Qed.
(** Rapp's model compresses: the output never exceeds one nor the amplified input, has its phase, and stronger inputs yield stronger outputs *)
Theorem C82_rapp : forall g p x, 0 <= g -> 0 < p -> length x = 1%nat -> exists y, amplify (Amplifier g (Rapp p)) x = Ok y /\
  samplewise (fun z w => exists v, w = Some v /\ Cmod v < 1 /\ Cmod v <= g * Cmod z /\ same_phase z v) x y /\
  forall r s i j z z' v v', nth_error x r = Some s -> nth_error s i = Some z -> nth_error s j = Some z' ->
    (exists t, nth_error y r = Some t /\ nth_error t i = Some (Some v) /\ nth_error t j = Some (Some v')) -> 0 < g -> Cmod z < Cmod z' -> Cmod v < Cmod v'.
Proof.
  intros g p x Hg Hp L.
  assert (E : forall z, Cmod (z * RtoC g * RtoC (Rpower (1 + npow (Cmod (z * RtoC g)%C) (2 * p)) (- 1 / (2 * p))))%C = rapp p (g * Cmod z)).
  { intro z. rewrite (Cmod_scaled (z * RtoC g)%C) by (apply Rlt_le, exp_pos). rewrite Cmod_scaled by exact Hg. unfold rapp. apply Rmult_comm. }
  destruct (amplify_samples (Amplifier g (Rapp p)) x (fun z w => exists v, w = Some v /\ Cmod v = rapp p (g * Cmod z) /\ same_phase z v)) as [y [Ey Sy]].
  - exact L.
  - discriminate.
  - eexists; reflexivity.
  - intro z. cbn [kind gain distort]. eexists. split; [reflexivity|]. eexists. split; [reflexivity|]. split; [apply E|]. apply scaled_phase; [apply Rlt_le, exp_pos|exact Hg].
  - exists y. split; [exact Ey|]. split.
    + unfold samplewise in *. eapply Forall2_impl2; [|exact Sy]. intros a b F. eapply Forall2_impl2; [|exact F]. cbn beta. intros z w [v [-> [Ev Ph]]].
      exists v. split; [reflexivity|]. rewrite Ev. assert (0 <= g * Cmod z) by (apply Rmult_le_pos; [exact Hg|apply Cmod_ge_0]).
      destruct (Rle_lt_or_eq_dec 0 (g * Cmod z) H) as [P|Z].
      * destruct (rapp_range p (g * Cmod z) Hp P) as [[R1 R2] R3]. split; [exact R2|]. split; [lra|exact Ph].
      * rewrite <- Z, rapp_0. split; [lra|]. split; [lra|exact Ph].
    + intros r s i j z z' v v' Hs Hz Hz' [t [Ht [Hv Hv']]] Pg Lt. unfold samplewise in Sy.
      pose proof (Forall2_at _ _ _ Sy r s t Hs Ht) as F. destruct (Forall2_at _ _ _ F i z _ Hz Hv) as [u [Eu [Mu _]]]. destruct (Forall2_at _ _ _ F j z' _ Hz' Hv') as [u' [Eu' [Mu' _]]].
      injection Eu as <-. injection Eu' as <-. rewrite Mu, Mu'. apply rapp_increasing; [exact Hp|apply Rmult_le_pos; [exact Hg|apply Cmod_ge_0]|]. apply Rmult_lt_compat_l; assumption.
Qed.
Print Assumptions C82_rapp.
Example C82_rapp_met : exists y, amplify (Amplifier 1 (Rapp 1)) [[RtoC 1; RtoC 2]] = Ok y /\ Cmod (RtoC 1) < Cmod (RtoC 2).
Proof. eexists. split; [reflexivity|]. rewrite !Cmod_R, !Rabs_pos_eq by lra. lra. Qed.

(** Saleh's model: amplitude and phase shift, bounded by alpha / (2 sqrt(beta)) *)
Theorem C82_saleh : forall g aa ab pa pb x, 0 <= g -> 0 <= aa -> 0 < ab -> 0 <= pb -> length x = 1%nat ->
  exists y, amplify (Amplifier g (Saleh aa ab pa pb)) x = Ok y /\
  samplewise (fun z w => let a := g * Cmod z in exists v, w = Some v /\ Cmod v = aa * a / (1 + ab * a ^ 2) /\ Cmod v <= aa / (2 * sqrt ab) /\
     exists r, 0 <= r /\ v = (RtoC r * z * cis (pa * a ^ 2 / (1 + pb * a ^ 2)))%C) x y.
Proof.
  intros g aa ab pa pb x Hg Ha Hb Hpb L. apply amplify_samples; [exact L|discriminate|eexists; reflexivity|]. intro z. cbn [kind gain distort].
  rewrite Cmod_scaled by exact Hg. set (a := g * Cmod z). assert (Pa : 0 <= a) by (apply Rmult_le_pos; [exact Hg|apply Cmod_ge_0]).
  assert (P2 : 0 <= a ^ 2) by apply pow2_ge_0. assert (Pp : 0 <= pb * a ^ 2) by (apply Rmult_le_pos; assumption). assert (Pb : 0 <= ab * a ^ 2) by (apply Rmult_le_pos; lra).
  destruct (Req_EM_T (1 + pb * a ^ 2) 0) as [Z|_]; [lra|]. eexists. split; [reflexivity|]. eexists. split; [reflexivity|].
  assert (Pk : 0 <= aa / (1 + ab * a ^ 2)) by (apply Rmult_le_pos; [exact Ha|apply Rlt_le, Rinv_0_lt_compat; lra]).
  assert (M : Cmod (z * RtoC g * RtoC (aa / (1 + ab * a ^ 2)) * cis (pa * a ^ 2 / (1 + pb * a ^ 2)))%C = aa * a / (1 + ab * a ^ 2)).
  { rewrite Cmod_mult, Cmod_cis, Rmult_1_r, (Cmod_scaled (z * RtoC g)%C) by exact Pk. rewrite Cmod_scaled by exact Hg. fold a. field. lra. }
  split; [exact M|]. split.
  - rewrite M. pose proof (sqrt_lt_R0 ab Hb) as Ps. pose proof (sqrt_sqrt ab ltac:(lra)) as Q. set (s := sqrt ab) in *.
    apply (Rmult_le_reg_r ((1 + ab * a ^ 2) * (2 * s))); [nra|].
    replace (aa * a / (1 + ab * a ^ 2) * ((1 + ab * a ^ 2) * (2 * s))) with (aa * (2 * (s * a))) by (field; lra).
    replace (aa / (2 * s) * ((1 + ab * a ^ 2) * (2 * s))) with (aa * (1 + (s * a) ^ 2)) by (rewrite <- Q; field; lra).
    apply Rmult_le_compat_l; [exact Ha|]. pose proof (pow2_ge_0 (s * a - 1)). lra.
  - exists (g * (aa / (1 + ab * a ^ 2))). split; [apply Rmult_le_pos; assumption|]. rewrite RtoC_mult. ring.
Qed.
Print Assumptions C82_saleh.
Example C82_saleh_met : 0 <= 1 /\ 0 <= 2 /\ 0 < 1 /\ 0 <= 3.
Proof. repeat split; lra. Qed.
(** Beyond saturation stronger inputs yield weaker outputs *)
Theorem C82_saleh_monotone_refuted : ~ (forall g aa ab pa pb z z' v v', 0 <= g -> 0 < aa -> 0 < ab -> Cmod z < Cmod z' ->
  amplify (Amplifier g (Saleh aa ab pa pb)) [[z; z']] = Ok [[Some v; Some v']] -> Cmod v < Cmod v').
Proof.
  intro H.
  assert (D : forall z a, Cmod z = a -> distort (Saleh 1 1 0 0) (z * RtoC 1)%C = Ok (Some (z * RtoC 1 * RtoC (1 / (1 + 1 * a ^ 2)) * cis (0 * a ^ 2 / (1 + 0 * a ^ 2)))%C)).
  { intros z a E. cbn [distort]. rewrite Cmod_scaled, E, Rmult_1_l by lra. destruct (Req_EM_T (1 + 0 * a ^ 2) 0); [lra|reflexivity]. }
  assert (M : forall r, 0 <= r -> Cmod (RtoC r) = r) by (intros r Hr; rewrite Cmod_R, Rabs_pos_eq by exact Hr; reflexivity).
  assert (A : forall r s, 0 <= r -> r < s -> amplify (Amplifier 1 (Saleh 1 1 0 0)) [[RtoC r; RtoC s]] = Ok [[Some (RtoC r * RtoC 1 * RtoC (1 / (1 + 1 * r ^ 2)) * cis (0 * r ^ 2 / (1 + 0 * r ^ 2)))%C; Some (RtoC s * RtoC 1 * RtoC (1 / (1 + 1 * s ^ 2)) * cis (0 * s ^ 2 / (1 + 0 * s ^ 2)))%C]]).
  { intros r s Hr Hs. unfold amplify. cbn [length Nat.eqb negb kind gain bind mapM]. rewrite (D (RtoC r) r (M r Hr)). cbn [bind]. rewrite (D (RtoC s) s (M s ltac:(lra))). reflexivity. }
  assert (L : Cmod (RtoC 1) < Cmod (RtoC 2)) by (rewrite !M by lra; lra).
  assert (P0 : 0 <= 1) by lra. assert (P1 : 0 < 1) by lra. assert (P2 : 1 < 2) by lra.
  specialize (H 1 1 1 0 0 (RtoC 1) (RtoC 2) _ _ P0 P1 P1 L (A 1 2 P0 P2)).
  assert (Q : forall r, 0 <= r -> Cmod (RtoC r * RtoC 1 * RtoC (1 / (1 + 1 * r ^ 2)) * cis (0 * r ^ 2 / (1 + 0 * r ^ 2)))%C = r * 1 * (1 / (1 + 1 * r ^ 2))).
  { intros r Hr. assert (0 <= 1 / (1 + 1 * r ^ 2)) by (apply Rmult_le_pos; [lra|apply Rlt_le, Rinv_0_lt_compat; nra]). rewrite !Cmod_mult, Cmod_cis, !M by lra. ring. }
  rewrite !Q in H by lra. lra.
Qed.
Print Assumptions C82_saleh_monotone_refuted.
(** Negative phase factors are accepted, although they divide by zero at some amplitude *)
Theorem C82_saleh_finite_refuted : ~ (forall g aa ab pa pb pa' x y, construct g (Saleh aa ab pa pb) = Ok pa' -> amplify pa' x = Ok y -> samplewise (fun _ w => w <> None) x y).
Proof.
  intro H. specialize (H 1 1 1 1 (-1) (Amplifier 1 (Saleh 1 1 1 (-1))) [[RtoC 1]] [[None]]).
  assert (C1 : construct 1 (Saleh 1 1 1 (-1)) = Ok (Amplifier 1 (Saleh 1 1 1 (-1)))) by (apply C82_parameters; cbn; lra).
  assert (A1 : amplify (Amplifier 1 (Saleh 1 1 1 (-1))) [[RtoC 1]] = Ok [[None]]).
  { unfold amplify. cbn [length Nat.eqb negb kind gain bind mapM distort]. rewrite Cmod_scaled, Cmod_R, Rabs_R1 by lra. destruct (Req_EM_T (1 + -1 * (1 * 1) ^ 2) 0) as [_|N]; [reflexivity|lra]. }
  specialize (H C1 A1). inversion H as [|a b l l' F _]. inversion F as [|a' b' m m' G _]. apply G. reflexivity.
Qed.
Print Assumptions C82_saleh_finite_refuted.

(** Custom characteristics: the measured gains and phases at the measured amplitudes, and no gain or phase outside of the measured range in between *)
Theorem C82_custom : forall g i k p x, 0 <= g -> increasing i -> i <> [] -> length i = length k -> length i = length p -> length x = 1%nat ->
  exists y, amplify (Amplifier g (Custom i k p)) x = Ok y /\
  samplewise (fun z w => exists f a, w = Some (z * RtoC g * RtoC f * cis a)%C /\
     (forall lo hi, Forall (fun v => lo <= v <= hi) k -> lo <= f <= hi) /\ (forall lo hi, Forall (fun v => lo <= v <= hi) p -> lo <= a <= hi) /\
     (forall n, nth_error i n = Some (g * Cmod z) -> nth_error k n = Some f /\ nth_error p n = Some a)) x y.
Proof.
  intros g i k p x Hg Hi Ne Lk Lp L.
  assert (Ex : forall l v, length i = length l -> exists r, interp i l v = Ok r).
  { intros l v E. unfold interp. rewrite E, Nat.eqb_refl. cbn [negb]. destruct i as [|a i]; [congruence|]. destruct l as [|b l]; [discriminate|]. cbn [combine]. eexists. reflexivity. }
  apply amplify_samples; [exact L| | |].
  - cbn [kind]. destruct (Ex k 0 Lk) as [r ->]. cbn [bind]. destruct (Ex p 0 Lp) as [r' ->]. discriminate.
  - cbn [kind]. destruct (Ex k 0 Lk) as [r ->]. cbn [bind]. exact (Ex p 0 Lp).
  - intro z. cbn [kind gain distort]. rewrite Cmod_scaled by exact Hg. destruct (Ex k (g * Cmod z) Lk) as [f Ef]. destruct (Ex p (g * Cmod z) Lp) as [a Ea].
    rewrite Ef. cbn [bind]. rewrite Ea. cbn [bind]. eexists. split; [reflexivity|]. exists f, a. split; [reflexivity|]. split; [|split].
    + intros lo hi F. exact (interp_bounds lo hi i k _ f Hi F Ef).
    + intros lo hi F. exact (interp_bounds lo hi i p _ a Hi F Ea).
    + intros n En. assert (Hn : (n < length i)%nat) by (apply nth_error_Some; congruence).
      destruct (nth_error k n) as [kn|] eqn:Kn; [|apply nth_error_None in Kn; lia]. destruct (nth_error p n) as [pn|] eqn:Pn; [|apply nth_error_None in Pn; lia].
      rewrite (interp_node i k n _ kn Hi Lk En Kn) in Ef. rewrite (interp_node i p n _ pn Hi Lp En Pn) in Ea. injection Ef as ->. injection Ea as ->. split; reflexivity.
Qed.
Print Assumptions C82_custom.
Example C82_custom_met : 0 <= 1 /\ increasing [0; 1; 2] /\ length [0; 1; 2] = length [1; 1; 1/2] /\ length [0; 1; 2] = length [0; 0; 1] /\
  nth_error [0; 1; 2] 2 = Some (1 * Cmod (RtoC 2)).
Proof. cbn [increasing length nth_error]. rewrite Cmod_R, Rabs_pos_eq by lra. repeat split; try lra. f_equal. lra. Qed.
(** The constructor misses one of two mismatching lengths; such amplifiers raise when used *)
Theorem C82_custom_lengths_refuted : ~ (forall g i k p pa, construct g (Custom i k p) = Ok pa -> length i = length k /\ length i = length p).
Proof.
  intro H. specialize (H 1 [0; 1] [1; 1] [0] (Amplifier 1 (Custom [0; 1] [1; 1] [0]))). destruct H as [_ H]; [|discriminate].
  apply C82_parameters. split; [lra|]. cbn. left. reflexivity.
Qed.
Print Assumptions C82_custom_lengths_refuted.
Theorem C82_custom_mismatch_raises : forall g i k p x, length i <> length k \/ length i <> length p -> amplify (Amplifier g (Custom i k p)) x = Raise ValueError.
Proof.
  intros g i k p x H. unfold amplify. destruct (negb (length x =? 1)%nat); [reflexivity|]. cbn [kind].
  assert (R : forall l v, length i <> length l -> interp i l v = Raise ValueError) by (intros l v N; unfold interp; destruct (Nat.eqb_spec (length i) (length l)); [contradiction|reflexivity]).
  destruct (Nat.eq_dec (length i) (length k)) as [E|N]; [|rewrite R by exact N; reflexivity]. destruct H as [H|H]; [contradiction|].
  unfold interp at 1. rewrite E, Nat.eqb_refl. cbn [negb]. destruct (combine i k) as [|[a b] l]; [reflexivity|]. cbn [bind]. rewrite R by exact H. reflexivity.
Qed.
Print Assumptions C82_custom_mismatch_raises.
Example C82_custom_mismatch_met : construct 1 (Custom [0; 1] [1; 1] [0]) = Ok (Amplifier 1 (Custom [0; 1] [1; 1] [0])) /\ length [0; 1] <> length [0].
Proof. split; [apply C82_parameters; split; [lra|cbn; left; reflexivity]|discriminate]. Qed.
(** Amplifiers without memory act on the amplitude only: rotating the input rotates the output *)
Theorem C82_rotation : forall g c pa x y t, construct g c = Ok pa -> amplify pa x = Ok y ->
  amplify pa (map (map (fun z => z * cis t)%C) x) = Ok (map (map (option_map (fun v => v * cis t)%C)) y).
Proof.
  intros g c pa x y t E A.
  assert (V : 0 <= g /\ valid_parameters c /\ pa = Amplifier g c).
  { unfold construct in E. destruct (C82_parameters g c) as [C1 C2]. destruct (Rlt_dec g 0) as [L|L].
    - destruct (parameters_ok c); discriminate.
    - destruct (parameters_ok c) eqn:P; [|discriminate]. injection E as <-. split; [lra|]. split; [|reflexivity].
      destruct c; cbn [valid_parameters parameters_ok] in *; try exact I.
      + destruct (Rlt_dec saturation 0); [discriminate|lra].
      + destruct (Rle_dec smoothness 0); [discriminate|lra].
      + destruct (Rlt_dec a_alpha 0); [discriminate|]. destruct (Rlt_dec a_beta 0); [discriminate|]. lra.
      + apply negb_true_iff, andb_false_iff in P. destruct P as [P|P]; apply negb_false_iff, Nat.eqb_eq in P; auto. }
  destruct V as [Hg [V ->]]. clear E. unfold amplify in *. rewrite map_length. destruct (negb (length x =? 1)%nat); [discriminate|]. cbn [kind gain] in *.
  assert (D : forall z w, distort c (z * RtoC g)%C = Ok w -> distort c (z * cis t * RtoC g)%C = Ok (option_map (fun v => v * cis t)%C w)).
  { intros z w. assert (M : Cmod (z * cis t * RtoC g)%C = Cmod (z * RtoC g)%C) by (rewrite !Cmod_mult, Cmod_cis; ring).
    destruct c as [|s|p|aa ab pa pb|i k p|r m e]; cbn [distort]; rewrite ?M.
    - intro E. injection E as <-. cbn [option_map]. do 2 f_equal. ring.
    - intro E. injection E as <-. cbn [option_map]. do 2 f_equal. destruct (Rlt_dec s (Cmod (z * RtoC g)%C)) as [L|L]; [|ring].
      cbn [valid_parameters] in V. assert (N : Cmod (z * RtoC g)%C <> 0) by lra. rewrite !direction_scaled by (rewrite ?M; exact N). rewrite M. ring.
    - intro E. injection E as <-. cbn [option_map]. do 2 f_equal. ring.
    - destruct (Req_EM_T (1 + pb * Cmod (z * RtoC g)%C ^ 2) 0);
        match goal with |- Ok ?a = Ok w -> _ => intro E; assert (Hw : w = a) by congruence; rewrite Hw; cbn [option_map]; try reflexivity end. do 2 f_equal. ring.
    - destruct (interp i k (Cmod (z * RtoC g)%C)) as [f|]; [|discriminate]. cbn [bind]. destruct (interp i p (Cmod (z * RtoC g)%C)) as [a|]; [|discriminate]. cbn [bind].
      match goal with |- Ok ?a = Ok w -> _ => intro E; assert (Hw : w = a) by congruence; rewrite Hw; cbn [option_map] end. do 2 f_equal. ring.
    - discriminate. }
  destruct (match c with Memory _ _ _ => Raise ValueError | Custom i k p => do _ <- interp i k 0; interp i p 0 | _ => Ok 0 end); [|discriminate]. cbn [bind] in *.
  assert (K : forall s r, mapM (fun z => distort c (z * RtoC g)%C) s = Ok r -> mapM (fun z => distort c (z * RtoC g)%C) (map (fun z => z * cis t)%C s) = Ok (map (option_map (fun v => v * cis t)%C) r)).
  { induction s as [|z s IH]; intros r Er; cbn [mapM map] in *; [injection Er as <-; reflexivity|].
    destruct (distort c (z * RtoC g)%C) as [w|] eqn:Ew; [|discriminate]. cbn [bind] in Er. destruct (mapM _ s) as [ws|] eqn:Es; [|discriminate]. cbn [bind] in Er. injection Er as <-.
    rewrite (D z w Ew). cbn [bind]. rewrite (IH ws eq_refl). reflexivity. }
  revert y A. induction x as [|s x IH]; intros y A; cbn [mapM map] in *; [injection A as <-; reflexivity|].
  destruct (mapM (fun z => distort c (z * RtoC g)%C) s) as [r|] eqn:Es; [|discriminate]. cbn [bind] in A. destruct (mapM (mapM _) x) as [rs|] eqn:Er; [|discriminate]. cbn [bind] in A. injection A as <-.
  rewrite (K s r Es). cbn [bind]. rewrite (IH rs eq_refl). reflexivity.
Qed.
Print Assumptions C82_rotation.
Example C82_rotation_met : exists y, construct 1 (Rapp 1) = Ok (Amplifier 1 (Rapp 1)) /\ amplify (Amplifier 1 (Rapp 1)) [[RtoC 1]] = Ok y.
Proof. eexists. split; [apply C82_parameters; cbn; lra|reflexivity]. Qed.
(** The memory polynomial amplifier raises for every signal and every matrix of coefficients *)
Theorem C82_memory_polynomial_refuted : ~ (exists g r m e x y, amplify (Amplifier g (Memory r m e)) x = Ok y).
Proof. intros [g [r [m [e [x [y H]]]]]]. unfold amplify in H. destruct (negb (length x =? 1)%nat); discriminate. Qed.
Print Assumptions C82_memory_polynomial_refuted.
