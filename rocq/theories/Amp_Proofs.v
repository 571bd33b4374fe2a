From Coq Require Import List Reals Bool Arith Lia Lra Psatz.
From Coquelicot Require Import Complex.
From Verif Require Import Base BaseLemmas Cplx Cplx_Proofs Amp_Model Amp_Spec.
Import ListNotations.
Open Scope R_scope.

Lemma Cmod_scaled : forall z g, 0 <= g -> Cmod (z * RtoC g)%C = g * Cmod z.
Proof. intros z g Hg. rewrite Cmod_mult, Cmod_R, Rabs_pos_eq by exact Hg. apply Rmult_comm. Qed.
Lemma Cmod_cis : forall t, Cmod (cis t) = 1.
Proof.
  intro t. unfold Cmod, cis. cbn [fst snd]. replace (cos t ^ 2 + sin t ^ 2) with 1; [apply sqrt_1|].
  pose proof (sin2_cos2 t). unfold Rsqr in H. lra.
Qed.
Lemma direction_mod : forall z, Cmod (direction z) = 1.
Proof.
  intro z. unfold direction. destruct (Req_EM_T (Cmod z) 0) as [_|N]; [rewrite Cmod_R; apply Rabs_R1|].
  rewrite Cmod_div by (intro E; apply N; injection E; auto). rewrite Cmod_R, Rabs_pos_eq by apply Cmod_ge_0. field. exact N.
Qed.
Lemma direction_scaled : forall z, Cmod z <> 0 -> direction z = (RtoC (/ Cmod z) * z)%C.
Proof.
  intros z N. unfold direction. destruct (Req_EM_T (Cmod z) 0) as [E|_]; [contradiction|]. unfold Cdiv. rewrite RtoC_inv by exact N. apply Cmult_comm.
Qed.
Lemma scaled_phase : forall z g r, 0 <= r -> 0 <= g -> same_phase z (z * RtoC g * RtoC r)%C.
Proof. intros z g r Hr Hg. exists (g * r). split; [apply Rmult_le_pos; assumption|]. rewrite RtoC_mult. ring. Qed.

(** ** Rapp's characteristic *)
Definition rapp (p a : R) : R := a * Rpower (1 + npow a (2 * p)) (- 1 / (2 * p)).
Lemma Rpower_1l : forall c, Rpower 1 c = 1.
Proof. intro c. unfold Rpower. rewrite ln_1, Rmult_0_r. apply exp_0. Qed.
Lemma rapp_pos : forall p a, 0 < p -> 0 < a -> rapp p a = Rpower (Rpower a (2 * p) / (1 + Rpower a (2 * p))) (/ (2 * p)).
Proof.
  intros p a Hp Ha. unfold rapp, npow. destruct (Req_EM_T a 0) as [E|_]; [lra|]. set (u := Rpower a (2 * p)). assert (Hu : 0 < u) by apply exp_pos.
  assert (Ea : a = Rpower u (/ (2 * p))). { unfold u. rewrite Rpower_mult. rewrite Rinv_r by lra. symmetry. apply Rpower_1. exact Ha. }
  unfold Rdiv at 2. rewrite <- Rpower_mult_distr by (try apply Rinv_0_lt_compat; lra). rewrite <- Ea. f_equal.
  replace (- 1 / (2 * p)) with (- / (2 * p)) by (field; lra). rewrite Rpower_Ropp.
  unfold Rpower. rewrite <- exp_Ropp. f_equal. rewrite ln_Rinv by lra. ring.
Qed.
Lemma rapp_0 : forall p, rapp p 0 = 0.
Proof. intro p. unfold rapp. apply Rmult_0_l. Qed.
Lemma fraction_lt : forall u v, 0 < u -> u < v -> u / (1 + u) < v / (1 + v).
Proof.
  intros u v Hu Huv. apply (Rmult_lt_reg_r ((1 + u) * (1 + v))); [nra|].
  replace (u / (1 + u) * ((1 + u) * (1 + v))) with (u * (1 + v)) by (field; lra). replace (v / (1 + v) * ((1 + u) * (1 + v))) with (v * (1 + u)) by (field; lra). lra.
Qed.
Lemma Rpower_lt_base : forall x y c, 0 < c -> 0 < x -> x < y -> Rpower x c < Rpower y c.
Proof. intros x y c Hc Hx H. unfold Rpower. apply exp_increasing. apply Rmult_lt_compat_l; [exact Hc|]. apply ln_increasing; assumption. Qed.
Lemma rapp_range : forall p a, 0 < p -> 0 < a -> 0 < rapp p a < 1 /\ rapp p a < a.
Proof.
  intros p a Hp Ha. split; [split|].
  - rewrite rapp_pos by assumption. apply exp_pos.
  - rewrite rapp_pos by assumption. set (u := Rpower a (2 * p)). assert (Hu : 0 < u) by apply exp_pos. apply Rlt_le_trans with (Rpower 1 (/ (2 * p))); [|rewrite Rpower_1l; lra].
    apply Rpower_lt_base; [apply Rinv_0_lt_compat; lra|apply Rdiv_lt_0_compat; lra|]. apply (Rmult_lt_reg_r (1 + u)); [lra|]. unfold Rdiv. rewrite Rmult_assoc, Rinv_l by lra. lra.
  - unfold rapp. rewrite <- (Rmult_1_r a) at 3. apply Rmult_lt_compat_l; [exact Ha|].
    unfold npow. destruct (Req_EM_T a 0); [lra|]. set (u := Rpower a (2 * p)). assert (Hu : 0 < u) by apply exp_pos.
    replace (- 1 / (2 * p)) with (- / (2 * p)) by (field; lra). rewrite Rpower_Ropp. rewrite <- Rinv_1. apply Rinv_lt_contravar; [rewrite Rmult_1_l; apply exp_pos|].
    apply Rle_lt_trans with (Rpower 1 (/ (2 * p))); [rewrite Rpower_1l; lra|]. apply Rpower_lt_base; [apply Rinv_0_lt_compat; lra|lra|lra].
Qed.
Lemma rapp_increasing : forall p a b, 0 < p -> 0 <= a -> a < b -> rapp p a < rapp p b.
Proof.
  intros p a b Hp Ha Hab. destruct Ha as [Ha|<-].
  - rewrite !rapp_pos by lra. apply Rpower_lt_base; [apply Rinv_0_lt_compat; lra| |].
    + apply Rdiv_lt_0_compat; [apply exp_pos|]. pose proof (exp_pos (2 * p * ln a)). unfold Rpower. lra.
    + apply fraction_lt; [apply exp_pos|]. apply Rpower_lt_base; lra.
  - rewrite rapp_0. apply rapp_range; assumption.
Qed.
Lemma rapp_nonneg : forall p a, 0 < p -> 0 <= a -> 0 <= rapp p a.
Proof. intros p a Hp [Ha|<-]; [apply Rlt_le, rapp_range; assumption|rewrite rapp_0; lra]. Qed.

(** ** Interpolation *)
Lemma interp_from_bounds : forall lo hi l x0 y0 x, increasing (x0 :: map fst l) -> lo <= y0 <= hi -> (forall p, In p l -> lo <= snd p <= hi) -> x0 <= x ->
  lo <= interp_from x0 y0 l x <= hi.
Proof.
  intros lo hi l. induction l as [|[x1 y1] l IH]; intros x0 y0 x Hi Hy Hl Hx; cbn [interp_from]; [exact Hy|].
  cbn [map fst increasing] in Hi. destruct Hi as [H01 Hi]. destruct (Rlt_dec x x1) as [L|L].
  - pose proof (Hl (x1, y1) (or_introl eq_refl)) as H1. cbn [snd] in H1.
    set (t := (x - x0) / (x1 - x0)). assert (0 <= t <= 1).
    { subst t. split; [apply Rmult_le_pos; [lra|]; apply Rlt_le, Rinv_0_lt_compat; lra|]. apply (Rmult_le_reg_r (x1 - x0)); [lra|]. unfold Rdiv. rewrite Rmult_assoc, Rinv_l by lra. lra. }
    replace (y0 + (x - x0) * ((y1 - y0) / (x1 - x0))) with ((1 - t) * y0 + t * y1) by (subst t; field; lra). nra.
  - apply IH; [exact Hi|apply (Hl (x1, y1)); left; reflexivity|intros p Hp; apply Hl; right; exact Hp|lra].
Qed.
Lemma interp_bounds : forall lo hi xs ys x y, increasing xs -> Forall (fun v => lo <= v <= hi) ys -> interp xs ys x = Ok y -> lo <= y <= hi.
Proof.
  intros lo hi xs ys x y Hi Hy E. unfold interp in E. destruct (Nat.eqb_spec (length xs) (length ys)) as [L|]; [|discriminate]. cbn [negb] in E.
  destruct xs as [|x0 xs], ys as [|y0 ys]; try discriminate. cbn [combine] in E. injection E as <-. rewrite Forall_forall in Hy.
  assert (H0 : lo <= y0 <= hi) by (apply Hy; left; reflexivity). destruct (Rlt_dec x x0); [exact H0|].
  apply interp_from_bounds; [|exact H0| |lra].
  - replace (map fst (combine xs ys)) with xs; [exact Hi|]. symmetry. cbn in L. injection L as L. clear -L. revert ys L. induction xs as [|a xs IH]; intros [|b ys] L; try discriminate; [reflexivity|]. cbn. f_equal. apply IH. cbn in L. lia.
  - intros [a b] Hp. cbn [snd]. apply Hy. right. eapply in_combine_r. exact Hp.
Qed.
Lemma interp_from_node : forall l x0 y0 i xi yi, increasing (x0 :: map fst l) -> nth_error ((x0, y0) :: l) i = Some (xi, yi) -> interp_from x0 y0 l xi = yi.
Proof.
  intros l. induction l as [|[x1 y1] l IH]; intros x0 y0 i xi yi Hi E.
  - destruct i as [|i]; [injection E as <- <-; reflexivity|destruct i; discriminate].
  - cbn [map fst increasing] in Hi. destruct Hi as [H01 Hi]. cbn [interp_from]. destruct i as [|i].
    + injection E as <- <-. destruct (Rlt_dec x0 x1); [|lra]. replace (x0 - x0) with 0 by lra. lra.
    + cbn [nth_error] in E. destruct (Rlt_dec xi x1) as [L|L]; [|eapply IH; [exact Hi|exact E]]. exfalso.
      assert (K : forall l x1 y1 i, increasing (x1 :: map fst l) -> nth_error ((x1, y1) :: l) i = Some (xi, yi) -> x1 <= xi).
      { clear. induction l as [|[x2 y2] l IH]; intros x1 y1 i Hi E; (destruct i as [|i]; [injection E as <- _; lra|]); [destruct i; discriminate|].
        cbn [map fst increasing] in Hi. cbn [nth_error] in E. pose proof (IH x2 y2 i (proj2 Hi) E). destruct Hi. lra. }
      pose proof (K _ _ _ _ Hi E). lra.
Qed.
Lemma interp_node : forall xs ys i xi yi, increasing xs -> length xs = length ys -> nth_error xs i = Some xi -> nth_error ys i = Some yi -> interp xs ys xi = Ok yi.
Proof.
  intros xs ys i xi yi Hi L Ex Ey. unfold interp. rewrite L, Nat.eqb_refl. cbn [negb]. destruct xs as [|x0 xs]; [destruct i; discriminate|]. destruct ys as [|y0 ys]; [discriminate|].
  cbn [combine]. f_equal. assert (Ec : nth_error ((x0, y0) :: combine xs ys) i = Some (xi, yi)).
  { change ((x0, y0) :: combine xs ys) with (combine (x0 :: xs) (y0 :: ys)). revert Ex Ey. generalize (x0 :: xs) as a, (y0 :: ys) as b. clear. intros a. revert i.
    induction a as [|u a IH]; intros [|i] [|v b] Ex Ey; try discriminate; cbn in *; [congruence|]. apply IH; assumption. }
  assert (Hi' : increasing (x0 :: map fst (combine xs ys))).
  { replace (map fst (combine xs ys)) with xs; [exact Hi|]. symmetry. cbn in L. injection L as L. clear -L. revert ys L. induction xs as [|a xs IH]; intros [|b ys] L; try discriminate; [reflexivity|]. cbn. f_equal. apply IH. cbn in L. lia. }
  rewrite (interp_from_node _ x0 y0 i xi yi Hi' Ec).
  destruct (Rlt_dec xi x0) as [Lt|]; [|reflexivity]. exfalso.
  destruct i as [|i]; [injection Ec as <- _; lra|].
  assert (K : forall l x1 y1 i, increasing (x1 :: map fst l) -> nth_error ((x1, y1) :: l) i = Some (xi, yi) -> x1 <= xi).
  { clear. induction l as [|[x2 y2] l IH]; intros x1 y1 i Hi E; (destruct i as [|i]; [injection E as <- _; lra|]); [destruct i; discriminate|].
    cbn [map fst increasing] in Hi. cbn [nth_error] in E. pose proof (IH x2 y2 i (proj2 Hi) E). destruct Hi. lra. }
  pose proof (K _ _ _ _ Hi' Ec). lra.
Qed.

(** ** From samples to signals *)
Lemma mapM_samples : forall {X Y} (f : X -> result Y) (R : X -> Y -> Prop) l, (forall x, exists y, f x = Ok y /\ R x y) -> exists r, mapM f l = Ok r /\ Forall2 R l r.
Proof.
  intros X Y f R l H. induction l as [|a l IH]; [exists []; split; [reflexivity|constructor]|]. destruct IH as [r [E F]]. destruct (H a) as [y [Ey Ry]].
  exists (y :: r). cbn [mapM]. rewrite Ey. cbn [bind]. rewrite E. split; [reflexivity|constructor; assumption].
Qed.
Lemma amplify_samples : forall pa x (R : C -> option C -> Prop), length x = 1%nat ->
  (match kind pa with Memory _ _ _ => Raise ValueError | Custom i g p => do _ <- interp i g 0; interp i p 0 | _ => Ok 0 end <> Raise ValueError) ->
  (exists v, match kind pa with Memory _ _ _ => Raise ValueError | Custom i g p => do _ <- interp i g 0; interp i p 0 | _ => Ok 0 end = Ok v) ->
  (forall z, exists w, distort (kind pa) (z * RtoC (gain pa))%C = Ok w /\ R z w) -> exists y, amplify pa x = Ok y /\ samplewise R x y.
Proof.
  intros pa x R L _ [v Ev] H. unfold amplify. rewrite L. cbn [Nat.eqb negb]. rewrite Ev. cbn [bind]. unfold samplewise.
  apply mapM_samples. intro r. apply mapM_samples. exact H.
Qed.
Lemma Forall2_impl2 : forall {X Y} (P Q : X -> Y -> Prop), (forall a b, P a b -> Q a b) -> forall l m, Forall2 P l m -> Forall2 Q l m.
Proof. intros X Y P Q H l m F. induction F; constructor; auto. Qed.
Lemma Forall2_at : forall {X Y} (P : X -> Y -> Prop) l m, Forall2 P l m -> forall i a b, nth_error l i = Some a -> nth_error m i = Some b -> P a b.
Proof.
  intros X Y P l m F. induction F as [|x y l m H F IH]; intros [|i] a b Ea Eb; cbn in *; try discriminate; [injection Ea as <-; injection Eb as <-; exact H|].
  eapply IH; eassumption.
Qed.
