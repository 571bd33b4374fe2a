(** Lemmas for the precoding properties. *)
From Coq Require Import Reals List Arith Bool ZArith QArith Qround Lia Lra.
From Coquelicot Require Import Complex.
From Verif Require Import Base BaseLemmas Cplx Cplx_Proofs Precode_Model Precode_Spec.
Import ListNotations.
Open Scope R_scope.
Open Scope C_scope.

Lemma inv_ok {A} (a b : A) : Ok a = Ok b -> a = b.
Proof. congruence. Qed.

(** Real sums *)
Lemma rsum_ext f g n : (forall i, (i < n)%nat -> f i = g i) -> rsum f n = rsum g n.
Proof. induction n as [|n IH]; intro H; [reflexivity|]. cbn. rewrite IH, H; auto. Qed.
Lemma rsum_plus f g n : rsum (fun i => f i + g i)%R n = (rsum f n + rsum g n)%R.
Proof. induction n as [|n IH]; cbn; [lra|]. rewrite IH. lra. Qed.
Lemma rsum_minus f g n : rsum (fun i => f i - g i)%R n = (rsum f n - rsum g n)%R.
Proof. induction n as [|n IH]; cbn; [lra|]. rewrite IH. lra. Qed.
Lemma rsum_scal c f n : rsum (fun i => c * f i)%R n = (c * rsum f n)%R.
Proof. induction n as [|n IH]; cbn; [lra|]. rewrite IH. lra. Qed.
Lemma rsum_scal_r c f n : rsum (fun i => f i * c)%R n = (rsum f n * c)%R.
Proof. induction n as [|n IH]; cbn; [lra|]. rewrite IH. lra. Qed.
Lemma rsum_0 n : rsum (fun _ => 0%R) n = 0%R.
Proof. induction n as [|n IH]; cbn; [reflexivity|]. rewrite IH. lra. Qed.
Lemma rsum_swap f n m : rsum (fun i => rsum (fun j => f i j) m) n = rsum (fun j => rsum (fun i => f i j) n) m.
Proof.
  induction n as [|n IH]; cbn; [symmetry; apply rsum_0|]. rewrite IH, <- rsum_plus. reflexivity.
Qed.
Lemma csum_minus (f g : nat -> C) n : csum (fun i => f i - g i) n = csum f n - csum g n.
Proof. induction n as [|n IH]; cbn [csum]; [ring|]. rewrite IH. ring. Qed.

(** A left inverse from the first Penrose condition *)
Lemma penrose_left_R rows cols a p v : penrose_R rows cols a p -> injective_R rows cols a ->
  forall c, (c < cols)%nat ->
  rsum (fun l => p c l * rsum (fun j => a l j * v j) cols)%R rows = v c.
Proof.
  intros P I c Hc. set (u := fun c => rsum (fun l => p c l * rsum (fun j => a l j * v j) cols)%R rows).
  enough (u c - v c = 0)%R by (unfold u in *; lra).
  apply (I (fun c => u c - v c)%R); [|exact Hc]. intros i Hi.
  rewrite (rsum_ext _ (fun c => a i c * u c - a i c * v c)%R) by (intros; lra).
  rewrite rsum_minus. enough (rsum (fun c => a i c * u c)%R cols = rsum (fun c => a i c * v c)%R cols) by lra.
  unfold u. transitivity (rsum (fun j => (rsum (fun c => a i c * rsum (fun l => p c l * a l j) rows) cols) * v j)%R cols).
  - transitivity (rsum (fun c => rsum (fun j => a i c * rsum (fun l => p c l * a l j) rows * v j)%R cols) cols).
    + apply rsum_ext. intros k _.
      transitivity (a i k * rsum (fun j => rsum (fun l => p k l * a l j) rows * v j)%R cols)%R.
      * f_equal. transitivity (rsum (fun l => rsum (fun j => p k l * (a l j * v j))%R cols) rows).
        { apply rsum_ext. intros l _. symmetry. apply rsum_scal. }
        rewrite rsum_swap. apply rsum_ext. intros j _. rewrite <- rsum_scal_r. apply rsum_ext. intros; lra.
      * rewrite <- rsum_scal. apply rsum_ext. intros; lra.
    + rewrite rsum_swap. apply rsum_ext. intros j _. apply rsum_scal_r.
  - apply rsum_ext. intros j Hj. rewrite P by assumption. reflexivity.
Qed.

Lemma penrose_left_C rows cols (a p : nat -> nat -> C) (v : nat -> C) :
  penrose_C rows cols a p -> injective_C rows cols a ->
  forall c, (c < cols)%nat ->
  csum (fun l => p c l * csum (fun j => a l j * v j) cols) rows = v c.
Proof.
  intros P I c Hc. set (u := fun c => csum (fun l => p c l * csum (fun j => a l j * v j) cols) rows).
  assert (Z : u c - v c = 0).
  { apply (I (fun c => u c - v c)); [|exact Hc]. intros i Hi.
    rewrite (csum_ext _ (fun c => a i c * u c - a i c * v c)) by (intros; ring).
    rewrite csum_minus.
    assert (E : csum (fun c => a i c * u c) cols = csum (fun c => a i c * v c) cols); [|rewrite E; ring].
    unfold u. transitivity (csum (fun j => (csum (fun c => a i c * csum (fun l => p c l * a l j) rows) cols) * v j) cols).
    - transitivity (csum (fun c => csum (fun j => a i c * csum (fun l => p c l * a l j) rows * v j) cols) cols).
      + apply csum_ext. intros k _.
        transitivity (a i k * csum (fun j => csum (fun l => p k l * a l j) rows * v j) cols).
        * f_equal. transitivity (csum (fun l => csum (fun j => p k l * (a l j * v j)) cols) rows).
          { apply csum_ext. intros l _. symmetry. exact (csum_scal (p k l) (fun j => a l j * v j) cols). }
          rewrite csum_swap. apply csum_ext. intros j _. rewrite <- csum_scal_r. apply csum_ext. intros; ring.
        * rewrite <- csum_scal. apply csum_ext. intros; ring.
      + rewrite csum_swap. apply csum_ext. intros j _. exact (csum_scal_r (v j) _ cols).
    - apply csum_ext. intros j Hj. rewrite P by assumption. reflexivity. }
  change (u c = v c). transitivity ((u c - v c) + v c); [ring|]. rewrite Z. ring.
Qed.

(** Alamouti *)
Lemma abs2_pos (z : C) : z <> 0 -> (0 < abs2 z)%R.
Proof.
  intro H. unfold abs2. destruct z as [a b]; cbn [fst snd].
  destruct (Req_dec a 0) as [->|Ha].
  - destruct (Req_dec b 0) as [->|Hb]; [exfalso; apply H; reflexivity|]. nra.
  - nra.
Qed.
Lemma abs2_nonneg (z : C) : (0 <= abs2 z)%R.
Proof. unfold abs2. nra. Qed.
Lemma abs2_conj (z : C) : conj z * z = RtoC (abs2 z).
Proof. unfold abs2, conj. apply C_ext; cbn; ring. Qed.
Lemma abs2_conj' (z : C) : z * conj z = RtoC (abs2 z).
Proof. unfold abs2, conj. apply C_ext; cbn; ring. Qed.
Lemma RtoC_nz (x : R) : x <> 0%R -> RtoC x <> 0.
Proof. intros H E. apply (f_equal fst) in E. cbn in E. contradiction. Qed.
Lemma conj_opp (a : C) : conj (- a) = - conj a.
Proof. unfold conj. apply C_ext; cbn; ring. Qed.

Lemma alamouti_even (h0 h1 xe xo : C) : (abs2 h0 + abs2 h1)%R <> 0%R ->
  (conj h0 * (h0 * xe + h1 * - conj xo) + h1 * conj (h0 * xo + h1 * conj xe))
  / RtoC (abs2 h0 + abs2 h1)%R = xe.
Proof.
  intro H. apply RtoC_nz in H.
  rewrite conj_plus, !conj_mult, conj_conj.
  replace (conj h0 * (h0 * xe + h1 * - conj xo) + h1 * (conj h0 * conj xo + conj h1 * xe))
    with (xe * (conj h0 * h0 + h1 * conj h1)) by ring.
  rewrite abs2_conj, abs2_conj', <- RtoC_plus. field. exact H.
Qed.
Lemma alamouti_odd (h0 h1 xe xo : C) : (abs2 h0 + abs2 h1)%R <> 0%R ->
  (conj h0 * (h0 * xo + h1 * conj xe) - h1 * conj (h0 * xe + h1 * - conj xo))
  / RtoC (abs2 h0 + abs2 h1)%R = xo.
Proof.
  intro H. apply RtoC_nz in H.
  rewrite conj_plus, !conj_mult, conj_opp, conj_conj.
  replace (conj h0 * (h0 * xo + h1 * conj xe) - h1 * (conj h0 * conj xe + conj h1 * - xo))
    with (xo * (conj h0 * h0 + h1 * conj h1)) by ring.
  rewrite abs2_conj, abs2_conj', <- RtoC_plus. field. exact H.
Qed.

Lemma alamouti_recovers s h nrx sent : constant_over 2 h ->
  alamouti_encode s 2 = Ok sent -> forall outs,
  exists got, alamouti_decode (over_channel nrx h sent) outs = Ok got
    /\ streams got = nrx /\ txs got = 1%nat /\ blocks got = blocks s /\ width got = width s
    /\ (forall i t b k, state got i t b k = 1)
    /\ forall i b k, (abs2 (h i 0%nat b k) + abs2 (h i 1%nat b k))%R <> 0%R ->
       raw got i b k = raw s 0 b k.
Proof.
  intros HC E outs. unfold alamouti_encode in E.
  destruct (streams s =? 1)%nat; [|discriminate]. cbn [negb Z.eqb] in E. cbn in E.
  destruct (Nat.even (blocks s)) eqn:EV; [|discriminate]. cbn [negb] in E. injection E as <-.
  unfold alamouti_decode, over_channel. cbn [streams txs blocks width raw state]. rewrite EV.
  cbn [negb Nat.ltb Nat.leb]. eexists. split; [reflexivity|].
  cbn [streams txs blocks width raw state]. repeat (split; [reflexivity|]).
  intros i b k HN. set (p := (b / 2)%nat).
  assert (D : b = (2 * p + b mod 2)%nat) by (apply Nat.div_mod; lia).
  assert (M : (b mod 2 < 2)%nat) by (apply Nat.mod_upper_bound; lia).
  assert (HO : forall t, h i t (2 * p + 1)%nat k = h i t (2 * p)%nat k) by (intro t; apply HC; lia).
  assert (E0 : Nat.even (2 * p) = true) by (apply Nat.even_spec; exists p; reflexivity).
  assert (E1 : Nat.even (2 * p + 1) = false) by (rewrite Nat.add_1_r, Nat.even_succ, <- Nat.negb_even, E0; reflexivity).
  cbn [csum Nat.eqb]. rewrite E0, E1, !HO.
  replace (2 * p + 1 - 1)%nat with (2 * p)%nat by lia. replace (S (2 * p)) with (2 * p + 1)%nat by lia.
  rewrite !Cplus_0_l.
  destruct (Nat.even b) eqn:Eb.
  - assert (B0 : b = (2 * p)%nat).
    { apply Nat.even_spec in Eb as (q & Hq). rewrite Hq in D, M |- *.
      rewrite Nat.mul_comm, Nat.mod_mul in D by lia. lia. }
    rewrite B0 in HN. rewrite alamouti_even by exact HN. rewrite <- B0. reflexivity.
  - assert (B1 : b = (2 * p + 1)%nat).
    { destruct (Nat.eq_dec (b mod 2) 0) as [Z|Z]; [|lia]. exfalso.
      assert (b = (2 * p)%nat) by lia. rewrite H, E0 in Eb. discriminate. }
    rewrite B1, !HO in HN. rewrite alamouti_odd by exact HN. rewrite <- B1. reflexivity.
Qed.

(** Ganesan *)
Definition split (x : nat -> C) (c : nat) : R :=
  if (c <? 3)%nat then fst (x c) else snd (x (c - 3)%nat).

Lemma ganesan_system (h : nat -> nat -> C) (x : nat -> C) j : (j < 8)%nat ->
  ganesan_rhs (fun m => csum (fun t => h t m * ganesan_cell x t m) 4) j
  = rsum (fun c => ganesan_matrix h j c * split x c)%R 6.
Proof.
  intro Hj. unfold ganesan_matrix. do 8 (destruct j as [|j]; [cbn; ring|]). lia.
Qed.

Lemma ganesan_orthogonal (h : nat -> C) v c : (c < 6)%nat ->
  rsum (fun j => ganesan_matrix (fun t _ => h t) j c
          * rsum (fun d => ganesan_matrix (fun t _ => h t) j d * v d) 6)%R 8
  = (rsum (fun t => abs2 (h t)) 4 * v c)%R.
Proof.
  intro Hc. unfold abs2, ganesan_matrix. do 6 (destruct c as [|c]; [cbn; ring|]). lia.
Qed.

Lemma ganesan_injective (h : nat -> nat -> C) :
  (forall t m, (m < 4)%nat -> h t m = h t 0%nat) ->
  (exists t, (t < 4)%nat /\ h t 0%nat <> 0) ->
  injective_R 8 6 (ganesan_matrix h).
Proof.
  intros HC (t & Ht & Hn) v Hv c Hc.
  assert (EM : forall j d, (j < 8)%nat -> ganesan_matrix h j d = ganesan_matrix (fun t _ => h t 0%nat) j d).
  { intros j d Hj. unfold ganesan_matrix. destruct (Nat.ltb_spec j 4).
    - rewrite !(HC _ j) by lia. reflexivity.
    - rewrite !(HC _ (j - 4)%nat) by lia. reflexivity. }
  pose proof (ganesan_orthogonal (fun t => h t 0%nat) v c Hc) as O.
  rewrite (rsum_ext _ (fun _ => 0%R)) in O.
  - rewrite rsum_0 in O. symmetry in O. apply Rmult_integral in O as [O|O]; [exfalso|exact O].
    cbn [rsum] in O. pose proof (abs2_pos _ Hn) as P.
    pose proof (abs2_nonneg (h 0%nat 0%nat)). pose proof (abs2_nonneg (h 1%nat 0%nat)).
    pose proof (abs2_nonneg (h 2%nat 0%nat)). pose proof (abs2_nonneg (h 3%nat 0%nat)).
    do 4 (destruct t as [|t]; [lra|]). lia.
  - intros j Hj. rewrite (rsum_ext _ (fun d => ganesan_matrix h j d * v d)%R).
    + rewrite Hv by exact Hj. ring.
    + intros d _. rewrite EM by exact Hj. reflexivity.
Qed.

Lemma ganesan_recovers pinv s h nrx sent : ganesan_encode s 4 = Ok sent -> forall outs,
  exists got, ganesan_decode pinv (over_channel nrx h sent) outs = Ok got
    /\ streams got = nrx /\ txs got = 1%nat /\ blocks got = blocks s /\ width got = width s
    /\ (forall i t b k, state got i t b k = 1)
    /\ forall i b k, (k < width s)%nat ->
       let a := ganesan_matrix (fun t m => h i t (4 * (b / 3) + m)%nat k) in
       penrose_R 8 6 a (pinv a) -> injective_R 8 6 a ->
       raw got i b k = raw s 0 b k.
Proof.
  intros E outs. unfold ganesan_encode in E.
  destruct (streams s =? 1)%nat; [|discriminate]. cbn [negb Z.eqb Pos.eqb] in E.
  destruct (Nat.eqb_spec (blocks s mod 3) 0) as [M3|]; [|discriminate]. cbn [negb] in E. apply inv_ok in E. subst sent.
  unfold ganesan_decode, over_channel. cbn [streams txs blocks width raw state].
  rewrite Nat.mod_mul by lia. cbn [Nat.eqb negb]. eexists. split; [reflexivity|].
  cbn [streams txs blocks width raw state]. split; [reflexivity|]. split; [reflexivity|].
  split. { rewrite Nat.div_mul by lia. pose proof (Nat.div_mod (blocks s) 3 ltac:(lia)). lia. }
  split; [reflexivity|]. split; [reflexivity|].
  intros i b k Hk P I. set (a := ganesan_matrix (fun t m : nat => h i t (4 * (b / 3) + m)%nat k)) in *. set (n := (b / 3)%nat) in *.
  set (x := fun i => raw s 0 (3 * n + i)%nat k).
  assert (HA : (fun t m => h i t (n * 4 + m)%nat k) = (fun t m => h i t (4 * n + m)%nat k)).
  { rewrite (Nat.mul_comm n 4). reflexivity. }
  assert (HE : forall c, (c < 6)%nat ->
     rsum (fun l => (pinv (ganesan_matrix (fun t m => h i t (n * 4 + m)%nat k)) c l
       * ganesan_rhs (fun m => csum (fun t => (h i t (n * 4 + m)%nat k
           * ganesan_cell (fun i => raw s 0 (3 * ((n * 4 + m) / 4) + i)%nat k) t ((n * 4 + m) mod 4))%C) 4) l)%R) 8
     = split x c).
  { intros c Hc. rewrite HA. fold a. rewrite <- (penrose_left_R 8 6 a (pinv a) (split x) P I c Hc).
    apply rsum_ext. intros l Hl. f_equal. unfold a.
    rewrite <- (ganesan_system (fun t m => h i t (4 * n + m)%nat k) x l Hl). unfold ganesan_rhs.
    assert (DM : forall m, (m < 4)%nat -> ((n * 4 + m) / 4 = n /\ (n * 4 + m) mod 4 = m)%nat).
    { intros m Hm. split; [rewrite Nat.div_add_l, Nat.div_small by lia; lia|].
      rewrite Nat.add_comm, Nat.mod_add, Nat.mod_small by lia. reflexivity. }
    destruct (Nat.ltb_spec l 4).
    - destruct (DM l) as [-> ->]; [lia|]. rewrite (Nat.mul_comm n 4). reflexivity.
    - destruct (DM (l - 4)%nat) as [-> ->]; [lia|]. rewrite (Nat.mul_comm n 4). reflexivity. }
  assert (M : (b mod 3 < 3)%nat) by (apply Nat.mod_upper_bound; lia).
  assert (D : b = (3 * n + b mod 3)%nat) by (apply Nat.div_mod; lia).
  apply C_ext; cbn [fst snd].
  - rewrite HE by lia. unfold split. apply Nat.ltb_lt in M as ->. unfold x. rewrite <- D. reflexivity.
  - rewrite HE by lia. unfold split.
    destruct (Nat.ltb_spec (3 + b mod 3) 3); [lia|]. unfold x.
    replace (3 + b mod 3 - 3)%nat with (b mod 3)%nat by lia. rewrite <- D. reflexivity.
Qed.

(** Maximum ratio combining *)
Lemma csum_RtoC f n : csum (fun i => RtoC (f i)) n = RtoC (rsum f n).
Proof. induction n as [|n IH]; cbn [csum rsum]; [reflexivity|]. rewrite IH, RtoC_plus. reflexivity. Qed.

Lemma flat_unflat {B} w (f : nat -> nat -> B) b k : (k < w)%nat ->
  flat w f (b * w + k)%nat = f b k.
Proof.
  intro H. unfold flat. f_equal.
  - rewrite Nat.div_add_l, Nat.div_small by lia. lia.
  - rewrite Nat.add_comm, Nat.mod_add, Nat.mod_small by lia. reflexivity.
Qed.

Lemma mrc_recovers s h nrx : streams s = 1%nat -> forall outs,
  exists got, mrc_decode (over_channel nrx h s) outs = Ok got
    /\ streams got = 1%nat /\ txs got = 1%nat /\ blocks got = blocks s /\ width got = width s
    /\ forall b k, (k < width s)%nat -> 
       state got 0%nat 0%nat b k = RtoC (rsum (fun i => abs2 (h i 0%nat b k)) nrx)
       /\ (rsum (fun i => abs2 (h i 0%nat b k)) nrx <> 0%R -> raw got 0%nat b k = raw s 0%nat b k).
Proof.
  intros S1 outs. unfold mrc_decode, over_channel. cbn [streams txs blocks width raw state]. rewrite S1.
  cbn [Nat.eqb negb]. eexists. split; [reflexivity|]. cbn [streams txs blocks width raw state].
  do 4 (split; [reflexivity|]). intros b k Hk. split; [reflexivity|]. intro HN. unfold unflat.
  rewrite (rsum_ext _ (fun i => abs2 (h i 0%nat b k))) by (intros i _; rewrite flat_unflat by exact Hk; reflexivity).
  rewrite (csum_ext _ (fun r => RtoC (abs2 (h r 0%nat b k)) * raw s 0%nat b k)).
  - rewrite csum_scal_r, csum_RtoC. field. apply RtoC_nz, HN.
  - intros i _. rewrite !flat_unflat by exact Hk. cbn [csum]. rewrite <- abs2_conj. ring.
Qed.

Lemma rsum_abs2_nonneg (f : nat -> C) n : (0 <= rsum (fun i => abs2 (f i)) n)%R.
Proof. induction n as [|n IH]; cbn [rsum]; [lra|]. pose proof (abs2_nonneg (f n)). lra. Qed.
Lemma rsum_abs2_pos (f : nat -> C) n i : (i < n)%nat -> f i <> 0 -> rsum (fun i => abs2 (f i)) n <> 0%R.
Proof.
  intros Hi Hn. enough (0 < rsum (fun i => abs2 (f i)) n)%R by lra.
  induction n as [|n IH]; [lia|]. cbn [rsum]. pose proof (rsum_abs2_nonneg f n). pose proof (abs2_nonneg (f n)).
  destruct (Nat.eq_dec i n) as [->|]; [pose proof (abs2_pos _ Hn); lra|].
  assert (i < n)%nat by lia. specialize (IH H1). lra.
Qed.

(** First maximum *)
Lemma argmax_spec f n : (argmax f n <= n)%nat /\ (forall i, (i <= n)%nat -> f i <= f (argmax f n))%R
  /\ (forall i, (i < argmax f n)%nat -> f i < f (argmax f n))%R.
Proof.
  induction n as [|n (L & M & F)]; cbn [argmax].
  - split; [lia|]. split; [intros i Hi; assert (i = 0)%nat as -> by lia; lra|intros; lia].
  - destruct (Rlt_dec (f (argmax f n)) (f (S n))) as [H|H].
    + split; [lia|]. split.
      * intros i Hi. destruct (Nat.eq_dec i (S n)) as [->|]; [lra|].
        pose proof (M i ltac:(lia)). lra.
      * intros i Hi. pose proof (M i ltac:(lia)). lra.
    + split; [lia|]. split.
      * intros i Hi. destruct (Nat.eq_dec i (S n)) as [->|]; [lra|]. apply M. lia.
      * exact F.
Qed.

(** Chains *)
Section Chains.
Context {A : Type}.
Variable num : A -> nat.

Lemma collect_in_head (chain : list (tcoder A)) outs l : collect_in chain outs = Ok l ->
  length l = S (length chain) /\ last l 0%Z = outs.
Proof.
  revert l. induction chain as [|c t IH]; intros l E; cbn [collect_in] in E.
  - injection E as <-. split; reflexivity.
  - destruct (collect_in t outs) as [l'|]; [|discriminate]. cbn [bind] in E.
    destruct (t_ins c (hd 0%Z l') <? 0)%Z; [discriminate|]. injection E as <-.
    destruct (IH l' eq_refl) as [L La]. split; [cbn; lia|].
    destruct l' as [|z l']; [discriminate|]. exact La.
Qed.

Lemma run_encode_streams chain : Forall (fun c => forall x o y, t_apply c x o = Ok y -> Z.of_nat (num y) = o) chain ->
  forall outs l x y, collect_in chain outs = Ok l -> run t_apply chain (tl l) x = Ok y ->
  chain <> [] -> Z.of_nat (num y) = outs.
Proof.
  induction 1 as [|c t Hc Ht IH]; intros outs l x y E R N; [congruence|].
  cbn [collect_in] in E. destruct (collect_in t outs) as [l'|] eqn:El; [|discriminate]. cbn [bind] in E.
  destruct (t_ins c (hd 0%Z l') <? 0)%Z; [discriminate|]. injection E as <-. cbn [tl] in R.
  destruct (collect_in_head _ _ _ El) as [L La]. destruct l' as [|z l']; [discriminate|].
  cbn [run] in R. apply bind_ok in R as (y1 & R1 & R2).
  destruct t as [|c' t].
  - cbn [run] in R2. injection R2 as <-. apply Hc in R1. rewrite R1. destruct l' as [|]; [exact La|discriminate].
  - eapply IH; [exact El|exact R2|discriminate].
Qed.

Lemma run_encode_inputs chain : Forall (fun c => forall x o y, t_apply c x o = Ok y -> Z.of_nat (num x) = t_ins c o) chain ->
  forall outs l x y, collect_in chain outs = Ok l -> run t_apply chain (tl l) x = Ok y ->
  chain <> [] -> Z.of_nat (num x) = hd 0%Z l.
Proof.
  intros H outs l x y E R N. destruct chain as [|c t]; [congruence|]. inversion H as [|? ? Hc Ht]; subst.
  cbn [collect_in] in E. destruct (collect_in t outs) as [l'|] eqn:El; [|discriminate]. cbn [bind] in E.
  destruct (t_ins c (hd 0%Z l') <? 0)%Z; [discriminate|]. injection E as <-. cbn [tl] in R.
  destruct (collect_in_head _ _ _ El) as [L La]. destruct l' as [|z l']; [discriminate|].
  cbn [run] in R. apply bind_ok in R as (y1 & R1 & R2). apply Hc in R1. exact R1.
Qed.

Lemma run_blocks (len : A -> nat) chain :
  Forall (fun c => forall x o y, t_apply c x o = Ok y ->
            (Z.of_nat (len x) * Zpos (t_out c) = Z.of_nat (len y) * Zpos (t_in c))%Z) chain ->
  forall l x y, run t_apply chain l x = Ok y -> (length chain <= length l)%nat -> forall q : Q,
  (q == inject_Z (Z.of_nat (len x)))%Q ->
  (fold_left (fun q c => q / encode_rate c) chain q == inject_Z (Z.of_nat (len y)))%Q.
Proof.
  induction 1 as [|c t Hc Ht IH]; intros l x y R L q Hq.
  - destruct l; cbn [run] in R; injection R as <-; exact Hq.
  - destruct l as [|z l]; [cbn in L; lia|]. cbn [run] in R. apply bind_ok in R as (y1 & R1 & R2).
    cbn [fold_left]. apply (IH l y1 y R2); [cbn in L; lia|]. rewrite Hq. apply Hc in R1.
    unfold encode_rate, Qeq, Qdiv, Qmult, Qinv, inject_Z. cbn. destruct (Z.of_nat (len x)) eqn:Ex; cbn; lia.
Qed.

(** The receiver undoes the transmitter, stage by stage. *)
Definition undoes (Rout Rin : A -> A -> Prop) (t : tcoder A) (r : rcoder A) : Prop :=
  forall s o s' y, t_apply t s o = Ok s' -> Rout s' y ->
  exists x, r_apply r y (r_outs r (Z.of_nat (num y))) = Ok x /\ Rin s x
    /\ r_outs r (Z.of_nat (num y)) = Z.of_nat (num x).
Inductive matched : list (tcoder A) -> list (rcoder A) -> (A -> A -> Prop) -> (A -> A -> Prop) -> Prop :=
| matched_nil R : matched [] [] R R
| matched_snoc ts rs t r R1 R2 R3 : undoes R1 R2 t r -> matched ts rs R2 R3 ->
    matched (ts ++ [t]) (r :: rs) R1 R3.

Lemma run_app (ts : list (tcoder A)) t io x y : length io = S (length ts) ->
  run t_apply (ts ++ [t]) io x = Ok y ->
  exists m, run t_apply ts (removelast io) x = Ok m /\ t_apply t m (last io 0%Z) = Ok y.
Proof.
  revert io x. induction ts as [|c ts IH]; intros io x L R.
  - destruct io as [|z [|]]; try discriminate. cbn in R |- *. apply bind_ok in R as (m & R1 & R2).
    injection R2 as <-. exists x. split; [reflexivity|exact R1].
  - destruct io as [|z io]; [discriminate|]. cbn [length] in L. cbn [app run] in R.
    apply bind_ok in R as (m & R1 & R2). destruct (IH io m ltac:(lia) R2) as (m' & E1 & E2).
    exists m'. destruct io as [|z' io]; [discriminate|].
    change (removelast (z :: z' :: io)) with (z :: removelast (z' :: io)).
    change (last (z :: z' :: io) 0%Z) with (last (z' :: io) 0%Z).
    split; [|exact E2]. cbn [run]. rewrite R1. exact E1.
Qed.

Lemma matched_decodes ts rs Rout Rin : matched ts rs Rout Rin ->
  forall io x s' y, length io = length ts -> run t_apply ts io x = Ok s' -> Rout s' y ->
  exists l got, collect_out rs (Z.of_nat (num y)) = Ok l /\ run r_apply rs (tl l) y = Ok got /\ Rin x got
    /\ hd 0%Z l = Z.of_nat (num y) /\ last l 0%Z = Z.of_nat (num got).
Proof.
  induction 1 as [R|ts rs t r R1 R2 R3 U M IH]; intros io x s' y L E Hy.
  - destruct io; [|discriminate]. cbn in E. injection E as <-. exists [Z.of_nat (num y)], y. cbn. auto.
  - rewrite app_length in L. cbn in L. destruct (run_app ts t io x s') as (m & E1 & E2); [lia|exact E|].
    destruct (U m (last io 0%Z) s' y E2 Hy) as (x1 & D & Hx & N).
    assert (LR : length (removelast io) = length ts).
    { destruct io as [|z io] using rev_ind; [cbn in L; lia|]. rewrite removelast_last. rewrite app_length in L. cbn in L. lia. }
    destruct (IH (removelast io) x m x1 LR E1 Hx) as (l & got & C1 & C2 & C3 & C4 & C5).
    cbn [collect_out]. rewrite N. destruct (Z.ltb_spec (Z.of_nat (num x1)) 0); [lia|]. rewrite C1. cbn [bind].
    eexists _, got. split; [reflexivity|]. destruct l as [|z l].
    { destruct rs; cbn in C1; [discriminate|]. destruct (r_outs r0 (Z.of_nat (num x1)) <? 0)%Z; [discriminate|].
      destruct (collect_out rs _); discriminate. }
    cbn [hd] in C4. subst z. rewrite N in D. cbn [tl run]. rewrite D. cbn [bind]. split; [exact C2|]. split; [exact C3|].
    split; [reflexivity|exact C5].
Qed.
End Chains.
