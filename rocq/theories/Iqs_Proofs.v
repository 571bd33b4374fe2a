(** Proofs about split streams *)
From Coq Require Import Reals Bool Arith Lia Lra.
From Coquelicot Require Import Complex.
From Verif Require Import Base BaseLemmas Cplx Cplx_Proofs Iqs_Model Iqs_Spec.
Open Scope R_scope.

Lemma Cmod_cis1 : forall t, Cmod (cis t) = 1.
Proof. intro t. unfold Cmod, cis. cbn [fst snd]. replace (cos t ^ 2 + sin t ^ 2) with 1 by (pose proof (sin2_cos2 t); unfold Rsqr in *; lra). apply sqrt_1. Qed.
Lemma unit_mod : forall z, Cmod (unit_of z) = 1.
Proof. intro z. unfold unit_of. destruct (Req_EM_T (Cmod z) 0) as [E|E]; [apply Cmod_1|]. assert (RtoC (Cmod z) <> RtoC 0) by (intro Q; apply RtoC_inj in Q; contradiction). rewrite Cmod_div by assumption. rewrite (Cmod_R (Cmod z)), Rabs_pos_eq by apply Cmod_ge_0. field. exact E. Qed.
Lemma unit_pos : forall c z, 0 < c -> unit_of (RtoC c * z)%C = unit_of z.
Proof.
  intros c z H. unfold unit_of. rewrite Cmod_mult, Cmod_R, Rabs_pos_eq by lra. destruct (Req_EM_T (c * Cmod z) 0) as [E|E]; destruct (Req_EM_T (Cmod z) 0) as [F|F]; try reflexivity; [exfalso; nra|exfalso; apply E; rewrite F; ring|].
  rewrite RtoC_mult. field. split; intro Q; apply RtoC_inj in Q; lra.
Qed.
Lemma mod_unit : forall z, (RtoC (Cmod z) * unit_of z)%C = z.
Proof. intro z. unfold unit_of. destruct (Req_EM_T (Cmod z) 0) as [E|E]; [rewrite E; apply Cmod_eq_0 in E; rewrite E; ring|]. field. intro Q. apply RtoC_inj in Q. contradiction. Qed.
Lemma any_below_false : forall p n, any_below p n = false <-> forall k, (k < n)%nat -> p k = false.
Proof.
  intros p n. induction n as [|n IH]; cbn [any_below]; [split; [intros _ k H; lia|reflexivity]|]. rewrite orb_false_iff, IH. split.
  - intros [A B] k H. destruct (Nat.eq_dec k n) as [->|N]; [exact B|apply A; lia].
  - intro A. split; [intros k H; apply A; lia|apply A; lia].
Qed.
Lemma any_below_true : forall p n k, (k < n)%nat -> p k = true -> any_below p n = true.
Proof. intros p n k H E. destruct (any_below p n) eqn:A; [reflexivity|]. rewrite any_below_false in A. rewrite A in E by exact H. discriminate. Qed.
Lemma rsum_const : forall f c n, (forall k, (k < n)%nat -> f k = c) -> rsum f n = INR n * c.
Proof. intros f c n. induction n as [|n IH]; intro H; [cbn; ring|]. cbn [rsum]. rewrite IH by (intros; apply H; lia). rewrite H by lia. rewrite S_INR. ring. Qed.
Lemma rsum_between : forall f a b n, (forall k, (k < n)%nat -> a <= f k <= b) -> INR n * a <= rsum f n <= INR n * b.
Proof. intros f a b n. induction n as [|n IH]; intro H; [cbn; lra|]. cbn [rsum]. specialize (IH ltac:(intros; apply H; lia)). specialize (H n ltac:(lia)). rewrite S_INR. lra. Qed.
Lemma mean_between : forall theta k n a b, (0 < k)%nat -> (0 < n)%nat -> (forall r i, (r < k)%nat -> (i < n)%nat -> a <= theta r i <= b) -> a <= mean theta k n <= b.
Proof.
  intros theta k n a b Hk Hn H. unfold mean. assert (Q : INR k * (INR n * a) <= rsum (fun r => rsum (theta r) n) k <= INR k * (INR n * b)). { apply rsum_between. intros r Hr. apply rsum_between. intros i Hi. apply H; assumption. }
  apply lt_INR in Hk. apply lt_INR in Hn. cbn [INR] in Hk, Hn. assert (P : 0 < INR k * INR n) by nra. split; apply Rmult_le_reg_r with (INR k * INR n); try exact P; unfold Rdiv; rewrite ?Rmult_assoc, ?Rinv_l by lra; lra.
Qed.
(** Both halves of an even number of streams *)
Lemma even_halves : forall k, ((2 * k + 1) / 2 = k)%nat /\ ((2 * k) / 2 = k)%nat /\ ((2 * k + 1 + 1) / 2 = S k)%nat.
Proof.
  intro k. split; [|split].
  - replace (2 * k + 1)%nat with (1 + k * 2)%nat by lia. rewrite Nat.div_add by lia. reflexivity.
  - rewrite Nat.mul_comm. apply Nat.div_mul. lia.
  - replace (2 * k + 1 + 1)%nat with (S k * 2)%nat by lia. apply Nat.div_mul. lia.
Qed.
Lemma combine_even : forall theta y k, streams y = (2 * k)%nat -> (forall r i, (r < k)%nat -> (i < width y)%nat -> at_ y (2 * r) i <> RtoC 0) ->
  exists z, combine theta y = Ok (Some z) /\ streams z = k /\ width z = width y /\
  forall r i, (r < k)%nat -> at_ z r i = (RtoC (sqrt (Cmod (at_ y (2 * r) i) ^ 2 + Cmod (at_ y (2 * r + 1) i) ^ 2)) * unit_of (cis (- mean theta k (width y)) * at_ y (2 * r + 1) i + at_ y (2 * r) i))%C.
Proof.
  intros theta y k E H. unfold combine. rewrite E. destruct (even_halves k) as (E1 & E2 & _). rewrite E1, E2, Nat.eqb_refl. cbn [orb]. assert (K : (if Nat.eqb k 1 then k else k) = k) by (destruct (Nat.eqb k 1); reflexivity). rewrite K.
  assert (F : forall r, (r < k)%nat -> (if Nat.eqb k 1 then 0%nat else r) = r). { intros r Hr. destruct (Nat.eqb_spec k 1); [lia|reflexivity]. }
  match goal with |- context [if any_below ?p k then _ else _] => assert (A : any_below p k = false) end.
  { apply any_below_false. intros r Hr. apply any_below_false. intros i Hi. rewrite F by exact Hr. destruct (Req_EM_T _ 0) as [Z|]; [|reflexivity]. apply Cmod_eq_0 in Z. exfalso. exact (H r i Hr Hi Z). }
  rewrite A. eexists. split; [reflexivity|]. split; [reflexivity|]. split; [reflexivity|]. intros r i Hr. cbn [at_]. rewrite !F by exact Hr. rewrite Cmod_mult, Cmod_cis1, Rmult_1_l. reflexivity.
Qed.
Lemma split_even : forall x k, streams x = k -> exists y, split x (2 * k) = Ok y /\ streams y = (2 * k)%nat /\ width y = width x /\
  forall r i, (r < k)%nat -> at_ y (2 * r) i = RtoC (fst (at_ x r i)) /\ at_ y (2 * r + 1) i = RtoC (snd (at_ x r i)).
Proof.
  intros x k E. unfold split, fits. destruct (even_halves k) as (E1 & E2 & _). rewrite E, E1, E2, Nat.eqb_refl. cbn [orb andb]. eexists. split; [reflexivity|]. split; [reflexivity|]. split; [reflexivity|]. intros r i Hr. cbn [at_]. destruct (even_halves r) as (D1 & D2 & _).
  assert (F : (if Nat.eqb k 1 then 0%nat else r) = r) by (destruct (Nat.eqb_spec k 1); [lia|reflexivity]).
  rewrite D1, D2, F. rewrite (Nat.even_mul 2 r). cbn [Nat.even orb]. replace (2 * r + 1)%nat with (S (2 * r)) by lia. rewrite Nat.even_succ, <- Nat.negb_even, Nat.even_mul. cbn [Nat.even orb negb]. split; reflexivity.
Qed.
Lemma split_modulus : forall z : C, sqrt (Cmod (RtoC (fst z)) ^ 2 + Cmod (RtoC (snd z)) ^ 2) = Cmod z.
Proof. intros [a b]. cbn [fst snd]. rewrite !Cmod_R. unfold Cmod. cbn [fst snd]. f_equal. rewrite <- !Rsqr_pow2, <- !Rsqr_abs. reflexivity. Qed.
Lemma same_angle : forall a b m c (z : C), - PI <= a <= PI -> - PI < b < PI -> 0 <= m -> 0 < c -> z <> RtoC 0 -> (RtoC m * cis a * z)%C = (RtoC c * cis b * z)%C -> a = b.
Proof.
  intros a b m c z Ha Hb Hm Hc Hz E. assert (E1 : (RtoC m * cis a)%C = (RtoC c * cis b)%C). { replace (RtoC m * cis a)%C with ((RtoC m * cis a * z) / z)%C by (field; exact Hz). rewrite E. field. exact Hz. }
  assert (M : m = c). { assert (Q : Cmod (RtoC m * cis a)%C = Cmod (RtoC c * cis b)%C) by (rewrite E1; reflexivity). rewrite !Cmod_mult, !Cmod_cis1, !Cmod_R, !Rabs_pos_eq in Q by lra. lra. }
  subst m. assert (E2 : cis a = cis b). { assert (N : RtoC c <> RtoC 0) by (intro Q; apply RtoC_inj in Q; lra). replace (cis a) with ((RtoC c * cis a) / RtoC c)%C by (field; exact N). rewrite E1. field. exact N. }
  pose proof PI_RGT_0 as PP. destruct (Rtotal_order a b) as [L|[L|L]]; [|exact L|]; exfalso.
  - apply (cis_nonzero_turn (b - a)); [lra|]. rewrite cis_sub, <- E2. apply cis_opp.
  - apply (cis_nonzero_turn (a - b)); [lra|]. rewrite cis_sub, E2. apply cis_opp.
Qed.
Lemma mean_const : forall theta k n c, (0 < k)%nat -> (0 < n)%nat -> (forall r i, (r < k)%nat -> (i < n)%nat -> theta r i = c) -> mean theta k n = c.
Proof. intros theta k n c Hk Hn H. pose proof (mean_between theta k n c c Hk Hn) as Q. assert (c <= mean theta k n <= c) by (apply Q; intros r i A B; rewrite H by assumption; lra). lra. Qed.
