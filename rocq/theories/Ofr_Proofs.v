From Coq Require Import List Reals Bool Arith ZArith Lia Lra Psatz.
From Coquelicot Require Import Complex.
From Verif Require Import Base BaseLemmas Cplx Cplx_Proofs Radar_Model Ofr_Model Ofr_Spec.
From Verif Require Mf_Model Mf_Spec Mf_Proofs Sc_Proofs Fmcw_Model Fmcw_Proofs.
Import ListNotations.
Local Open Scope nat_scope.

Lemma rectangular_shape : forall w n g, rectangular w n g -> has_shape w n g = true.
Proof. intros w n g [A B]. unfold has_shape. rewrite A, Nat.eqb_refl. cbn [andb]. apply forallb_forall. rewrite Forall_forall in B. intros r Hr. apply Nat.eqb_eq. apply B. exact Hr. Qed.
Definition ind (x : grid) (r c : nat) : R := if Ceqb (entry x r c) (RtoC 0) then 0%R else 1%R.
Lemma ind_row : forall l, Mf_Spec.rsum (fun c => if Ceqb (at0 l c) (RtoC 0) then 0%R else 1%R) (length l) = INR (length (filter (fun v => negb (Ceqb v (RtoC 0))) l)).
Proof.
  intro l. induction l as [|v l IH] using rev_ind; [reflexivity|]. rewrite app_length, filter_app, app_length, plus_INR. cbn [length]. rewrite Nat.add_1_r. cbn [Mf_Spec.rsum].
  assert (E : Mf_Spec.rsum (fun c => if Ceqb (at0 (l ++ [v]) c) (RtoC 0) then 0%R else 1%R) (length l) = Mf_Spec.rsum (fun c => if Ceqb (at0 l c) (RtoC 0) then 0%R else 1%R) (length l)).
  { apply Mf_Proofs.rsum_ext. intros i Hi. unfold at0. rewrite app_nth1 by exact Hi. reflexivity. }
  rewrite E, IH. unfold at0. rewrite nth_middle. cbn [filter]. destruct (Ceqb v (RtoC 0)); cbn [negb length INR]; lra.
Qed.
Lemma ind_total : forall w n x, rectangular w n x -> Mf_Spec.rsum (fun r => Mf_Spec.rsum (ind x r) n) w = INR (used x).
Proof.
  intros w n x [A B]. subst w. induction x as [|row x IH] using rev_ind; [reflexivity|]. apply Forall_app in B. destruct B as [B1 B2]. inversion B2 as [|? ? B3 _]; subst.
  unfold used. rewrite concat_app, filter_app, !app_length, plus_INR. cbn [length concat]. rewrite Nat.add_1_r, app_nil_r. cbn [Mf_Spec.rsum]. rewrite <- (ind_row row).
  rewrite (Mf_Proofs.rsum_ext (fun r => Mf_Spec.rsum (ind (x ++ [row]) r) (length row)) (fun r => Mf_Spec.rsum (ind x r) (length row)) (length x)).
  - rewrite (IH B1). unfold used. f_equal. apply Mf_Proofs.rsum_ext. intros c Hc. unfold ind, entry. rewrite nth_middle. reflexivity.
  - intros r Hr. apply Mf_Proofs.rsum_ext. intros c Hc. unfold ind, entry. rewrite app_nth1 by exact Hr. reflexivity.
Qed.
Lemma normalized_echo : forall w n g d z x y r c, echo_symbols w n g d z x y -> r < w -> c < n ->
  normalized y x r c = (g * RtoC (ind x r c) * cis (2 * PI * IZR z * INR r / INR w - turn n d c))%C.
Proof.
  intros w n g d z x y r c (_ & _ & H) Hr Hc. unfold normalized, ind. unfold Ceqb. destruct (Ceq_dec (entry x r c) (RtoC 0)) as [E|E]; [ring|]. rewrite (H r c Hr Hc).
  unfold Rminus. rewrite cis_add. field. exact E.
Qed.
Lemma profile_echo : forall w n g d z x y u k, 0 < n -> echo_symbols w n g d z x y ->
  profile w n (normalized y x) u k = (g / RtoC (INR n) * csum (fun r => csum (fun c => RtoC (ind x r c) * cis (2 * PI * IZR z * INR r / INR w - turn n d c + turn n k c - turn w (Fmcw_Model.unshift w u) r)) n) w)%C.
Proof.
  intros w n g d z x y u k Hn H. assert (N : RtoC (INR n) <> RtoC 0) by (intro Q; apply RtoC_inj in Q; revert Q; apply not_0_INR; lia). unfold profile. rewrite <- csum_scal. apply csum_ext. intros r Hr.
  rewrite (csum_ext _ (fun c => g * cis (turn w (Fmcw_Model.unshift w u) r) * (RtoC (ind x r c) * cis (2 * PI * IZR z * INR r / INR w - turn n d c + turn n k c - turn w (Fmcw_Model.unshift w u) r)))%C n).
  - rewrite csum_scal. set (s := csum _ n). assert (Q : (cis (turn w (Fmcw_Model.unshift w u) r) * cis (- turn w (Fmcw_Model.unshift w u) r))%C = RtoC 1) by (rewrite <- cis_add, Rplus_opp_r; apply cis_0).
    transitivity (g / RtoC (INR n) * s * (cis (turn w (Fmcw_Model.unshift w u) r) * cis (- turn w (Fmcw_Model.unshift w u) r)))%C; [field; exact N|]. rewrite Q. field. exact N.
  - intros c Hc. rewrite (normalized_echo w n g d z x y r c H Hr Hc).
    transitivity (g * RtoC (ind x r c) * (cis (2 * PI * IZR z * INR r / INR w - turn n d c) * cis (turn n k c)))%C; [ring|]. rewrite <- cis_add.
    transitivity (g * RtoC (ind x r c) * (cis (turn w (Fmcw_Model.unshift w u) r) * cis (2 * PI * IZR z * INR r / INR w - turn n d c + turn n k c - turn w (Fmcw_Model.unshift w u) r)))%C; [|ring].
    rewrite <- cis_add. f_equal. f_equal. ring.
Qed.
Lemma ind_nonneg : forall x r c, (0 <= ind x r c)%R.
Proof. intros. unfold ind. destruct (Ceqb _ _); lra. Qed.
Lemma double_bound : forall x (f : nat -> nat -> R) w n, (Cmod (csum (fun r => csum (fun c => RtoC (ind x r c) * cis (f r c))%C n) w) <= Mf_Spec.rsum (fun r => Mf_Spec.rsum (ind x r) n) w)%R.
Proof.
  intros x f w n. eapply Rle_trans; [apply Mf_Proofs.csum_bound|]. apply Mf_Proofs.rsum_mono. intro r. eapply Rle_trans; [apply Mf_Proofs.csum_bound|]. apply Mf_Proofs.rsum_mono. intro c.
  rewrite Cmod_mult, Mf_Proofs.cmod_cis, Rmult_1_r, Cmod_R, Rabs_pos_eq by apply ind_nonneg. lra.
Qed.
Lemma double_sum : forall x w n, csum (fun r => csum (fun c => RtoC (ind x r c)) n) w = RtoC (Mf_Spec.rsum (fun r => Mf_Spec.rsum (ind x r) n) w).
Proof. intros x w n. rewrite (csum_ext _ (fun r => RtoC (Mf_Spec.rsum (ind x r) n))); [apply Mf_Proofs.csum_real|]. intros r _. apply Mf_Proofs.csum_real. Qed.
Lemma profile_bound : forall w n g d z x y u k, 0 < n -> echo_symbols w n g d z x y -> (Cmod (profile w n (normalized y x) u k) <= Cmod g * INR (used x) / INR n)%R.
Proof.
  intros w n g d z x y u k Hn H. assert (N : (0 < INR n)%R) by (apply lt_0_INR; exact Hn). assert (NC : RtoC (INR n) <> RtoC 0) by (intro Q; apply RtoC_inj in Q; lra).
  rewrite (profile_echo w n g d z x y u k Hn H), Cmod_mult, Cmod_div by exact NC. rewrite Cmod_R, Rabs_pos_eq by lra. rewrite <- (ind_total w n x (proj1 H)).
  eapply Rle_trans; [|right; symmetry; unfold Rdiv; rewrite Rmult_assoc, (Rmult_comm _ (/ INR n)), <- Rmult_assoc; reflexivity]. apply Rmult_le_compat_l; [apply Rmult_le_pos; [apply Cmod_ge_0|apply Rlt_le, Rinv_0_lt_compat; exact N]|]. apply double_bound.
Qed.
Lemma profile_hit : forall w n g d (z : Z) x y u, 0 < n -> 0 < w -> echo_symbols w n g d z x y -> ((Z.of_nat (Fmcw_Model.unshift w u) - z) mod Z.of_nat w = 0)%Z ->
  Cmod (profile w n (normalized y x) u d) = (Cmod g * INR (used x) / INR n)%R.
Proof.
  intros w n g d z x y u Hn Hw H Hz. assert (N : (0 < INR n)%R) by (apply lt_0_INR; exact Hn). assert (NC : RtoC (INR n) <> RtoC 0) by (intro Q; apply RtoC_inj in Q; lra). assert (W : (0 < INR w)%R) by (apply lt_0_INR; exact Hw).
  rewrite (profile_echo w n g d z x y u d Hn H), Cmod_mult, Cmod_div by exact NC. rewrite (Cmod_R (INR n)), (Rabs_pos_eq (INR n)) by lra. rewrite <- (ind_total w n x (proj1 H)).
  rewrite (csum_ext _ (fun r => csum (fun c => RtoC (ind x r c)) n)).
  - rewrite double_sum, Cmod_R, Rabs_pos_eq; [unfold Rdiv; ring|]. rewrite (ind_total w n x (proj1 H)). apply pos_INR.
  - intros r Hr. apply csum_ext. intros c Hc. apply Z.mod_divide in Hz; [|lia]. destruct Hz as [q Hz].
    replace (2 * PI * IZR z * INR r / INR w - turn n d c + turn n d c - turn w (Fmcw_Model.unshift w u) r)%R with (0 + 2 * PI * IZR (- (q * Z.of_nat r)))%R.
    + rewrite Fmcw_Proofs.cis_turns, cis_0. ring.
    + unfold turn at 3. rewrite (INR_IZR_INZ (Fmcw_Model.unshift w u)). replace (Z.of_nat (Fmcw_Model.unshift w u)) with (z + q * Z.of_nat w)%Z by lia. rewrite plus_IZR, opp_IZR, !mult_IZR, <- !INR_IZR_INZ. field. lra.
Qed.
Lemma row_of_shift : forall w (z : Z) u, 0 < w -> Z.of_nat u = (Z.of_nat (w - w / 2) + z)%Z -> ((Z.of_nat (Fmcw_Model.unshift w u) - z) mod Z.of_nat w = 0)%Z.
Proof.
  intros w z u Hw H. unfold Fmcw_Model.unshift. rewrite Nat2Z.inj_mod, Zminus_mod_idemp_l, Nat2Z.inj_add, H. assert (D : w / 2 <= w) by (apply Nat.div_le_upper_bound; lia). rewrite Nat2Z.inj_sub by exact D.
  replace (Z.of_nat w - Z.of_nat (w / 2) + z + Z.of_nat (w / 2) - z)%Z with (Z.of_nat w) by lia. apply Z_mod_same_full.
Qed.
Lemma assign_zero : forall w n e, assign w n 0 e = Ok (fun u k => e (0 + u) k).
Proof. intros w n e. unfold assign. rewrite !Nat.sub_0_r, !Nat.eqb_refl. reflexivity. Qed.
