(** * C137: equalization of several streams *)
From Coq Require Import Arith Bool Reals Lra Lia.
From Coquelicot Require Import Complex.
From Verif Require Import Base Cplx Cplx_Proofs Eqz_Model Eqz_Spec Eqz_Proofs.
Open Scope C_scope.

(** Zero forcing of several receiving streams returns what was transmitted if the states tell transmissions apart, plus the pseudo-inverse of what was added *)
Theorem C137_zero_forcing : forall pinv s x n, (2 <= streams (sym s))%nat -> inverts pinv s -> received s x n ->
  (forall b k, (b < blocks (sym s))%nat -> (k < width (sym s))%nat -> distinguishes (streams (sym s)) (tx s) (fun r t => states s r t b k)) ->
  let z := zero_forcing pinv s in
  streams z = tx s /\ blocks z = blocks (sym s) /\ width z = width (sym s) /\
  forall t b k, (t < tx s)%nat -> (b < blocks z)%nat -> (k < width z)%nat ->
  raw z t b k = x t b k + csum (fun r => pinv (streams (sym s)) (tx s) (fun r t => states s r t b k) t r * n r b k) (streams (sym s)).
Proof.
  intros pinv s x n H2 Hi Hr Hd. cbv zeta. unfold zero_forcing. destruct (Nat.ltb_spec (streams (sym s)) 2) as [L|L]; [lia|].
  cbn [apply_inverse streams blocks width raw]. do 3 (split; [reflexivity|]). intros t b k Ht Hb Hk. unfold state_matrix.
  set (P := pinv (streams (sym s)) (tx s) (fun r t => states s r t b k)).
  rewrite (csum_ext _ (fun r => P t r * csum (fun t => states s r t b k * x t b k) (tx s) + P t r * n r b k)).
  2: { intros r Hrr. rewrite (Hr r b k Hrr Hb Hk). ring. }
  rewrite csum_plus. f_equal.
  apply (left_inverse (streams (sym s)) (tx s) (fun r t => states s r t b k) P (Hi b k Hb Hk) (Hd b k Hb Hk) (fun t => x t b k) t Ht).
Qed.
Print Assumptions C137_zero_forcing.

(** Whatever was received: the remaining difference is orthogonal to all channels, the condition of least squares *)
Theorem C137_least_squares : forall pinv s, (2 <= streams (sym s))%nat -> inverts pinv s ->
  forall t b k, (t < tx s)%nat -> (b < blocks (sym s))%nat -> (k < width (sym s))%nat ->
  csum (fun r => Cconj (states s r t b k) *
    (raw (sym s) r b k - csum (fun u => states s r u b k * raw (zero_forcing pinv s) u b k) (tx s))) (streams (sym s)) = RtoC 0.
Proof.
  intros pinv s H2 Hi t b k Ht Hb Hk. unfold zero_forcing. destruct (Nat.ltb_spec (streams (sym s)) 2) as [L|L]; [lia|].
  cbn [apply_inverse raw]. unfold state_matrix.
  pose proof (normal _ _ _ _ (Hi b k Hb Hk) (fun r => raw (sym s) r b k) t Ht) as N. cbv beta in N.
  set (P := pinv (streams (sym s)) (tx s) (fun r t => states s r t b k)) in *.
  rewrite (csum_ext _ (fun r => Cconj (states s r t b k) * raw (sym s) r b k + (- RtoC 1) * (Cconj (states s r t b k) *
    csum (fun u => states s r u b k * csum (fun j => P u j * raw (sym s) j b k) (streams (sym s))) (tx s)))).
  2: { intros r _. ring. }
  rewrite csum_plus, csum_scal, N. ring.
Qed.
Print Assumptions C137_least_squares.

(** A single receiving stream is divided by the sum of all states: what is transmitted from all antennas alike is returned, as a single stream *)
Theorem C137_single_stream : forall pinv s x, streams (sym s) = 1%nat -> received s (fun _ b k => x b k) (fun _ _ _ => RtoC 0) ->
  let z := zero_forcing pinv s in
  streams z = 1%nat /\ blocks z = blocks (sym s) /\ width z = width (sym s) /\
  forall b k, (b < blocks z)%nat -> (k < width z)%nat -> csum (fun t => states s 0%nat t b k) (tx s) <> RtoC 0 -> raw z 0%nat b k = x b k.
Proof.
  intros pinv s x H1 Hr. cbv zeta. unfold zero_forcing. rewrite H1. cbn [Nat.ltb Nat.leb streams blocks width raw].
  do 3 (split; [reflexivity|]). intros b k Hb Hk Hz. rewrite (Hr 0%nat b k ltac:(lia) Hb Hk).
  rewrite (csum_scal_r (x b k) (fun t => states s 0%nat t b k) (tx s)). field. exact Hz.
Qed.
Print Assumptions C137_single_stream.

(** Two antennas with opposite symbols over equal channels are received, and equalized, as nothing *)
Theorem C137_single_stream_refuted : ~ forall pinv s x, streams (sym s) = 1%nat -> received s x (fun _ _ _ => RtoC 0) ->
  (forall b k, (b < blocks (sym s))%nat -> (k < width (sym s))%nat -> csum (fun t => states s 0%nat t b k) (tx s) <> RtoC 0) ->
  forall b k, (b < blocks (sym s))%nat -> (k < width (sym s))%nat -> raw (zero_forcing pinv s) 0%nat b k = x 0%nat b k.
Proof.
  intro H. specialize (H (fun _ _ _ _ _ => RtoC 0)
    {| sym := {| streams := 1; blocks := 1; width := 1; raw := fun _ _ _ => RtoC 0 |}; tx := 2; states := fun _ _ _ _ => RtoC 1 |}
    (fun t _ _ => if Nat.eqb t 0 then RtoC 1 else (- RtoC 1)) eq_refl).
  assert (E : RtoC 0 / (RtoC 0 + RtoC 1 + RtoC 1) = RtoC 1).
  - apply (fun a b => H a b 0%nat 0%nat (Nat.lt_0_succ 0) (Nat.lt_0_succ 0)).
    + intros r b k _ _ _. cbn. ring.
    + intros b k _ _. cbn. intro E. apply (f_equal fst) in E. cbn in E. lra.
  - unfold Cdiv in E. rewrite Cmult_0_l in E. apply (f_equal fst) in E. cbn in E. lra.
Qed.
Print Assumptions C137_single_stream_refuted.

(** Minimum-mean-square equalization raises exactly for more transmitting than receiving streams *)
Theorem C137_mmse_raises : forall pinv s e, (1 <= streams (sym s))%nat ->
  (mmse pinv s = Raise e <-> (streams (sym s) < tx s)%nat /\ e = RuntimeError).
Proof.
  intros pinv s e H1. unfold mmse.
  destruct (Nat.ltb_spec (tx s) 2) as [A|A]; destruct (Nat.ltb_spec (streams (sym s)) 2) as [B|B]; cbn [andb];
    try (split; [discriminate|intros [? _]; lia]);
    destruct (Nat.ltb_spec (streams (sym s)) (tx s)) as [D|D];
    split; try discriminate; try (intros [? ->]; first [reflexivity|lia]);
    intro E; injection E as <-; split; auto.
Qed.
Print Assumptions C137_mmse_raises.

(** Otherwise it is zero forcing: noise is not regarded *)
Theorem C137_mmse_is_zero_forcing : forall pinv s z, (1 <= streams (sym s))%nat -> (1 <= tx s)%nat -> mmse pinv s = Ok z -> same z (zero_forcing pinv s).
Proof.
  intros pinv s z H1 H2. unfold mmse, zero_forcing.
  destruct (Nat.ltb_spec (tx s) 2) as [A|A]; destruct (Nat.ltb_spec (streams (sym s)) 2) as [B|B]; cbn [andb].
  - intro E. injection E as <-. unfold same. cbn [streams blocks width raw]. do 3 (split; [reflexivity|]). intros r l k _ _ _.
    replace (tx s) with 1%nat by lia. cbn [csum]. f_equal. ring.
  - destruct (Nat.ltb_spec (streams (sym s)) (tx s)); [discriminate|]. intro E. injection E as <-. unfold same. auto.
  - destruct (Nat.ltb_spec (streams (sym s)) (tx s)); [discriminate|lia].
  - destruct (Nat.ltb_spec (streams (sym s)) (tx s)); [discriminate|]. intro E. injection E as <-. unfold same. auto.
Qed.
Print Assumptions C137_mmse_is_zero_forcing.

(** Minimum-mean-square equalization returns what was transmitted wherever the states tell transmissions apart, if nothing was added *)
Theorem C137_mmse : forall pinv s x z, (1 <= streams (sym s))%nat -> (1 <= tx s)%nat -> inverts pinv s -> received s x (fun _ _ _ => RtoC 0) ->
  (forall b k, (b < blocks (sym s))%nat -> (k < width (sym s))%nat -> distinguishes (streams (sym s)) (tx s) (fun r t => states s r t b k)) ->
  mmse pinv s = Ok z ->
  streams z = tx s /\ forall t b k, (t < tx s)%nat -> (b < blocks (sym s))%nat -> (k < width (sym s))%nat -> raw z t b k = x t b k.
Proof.
  intros pinv s x z H1 H2 Hi Hr Hd Hz. destruct (C137_mmse_is_zero_forcing pinv s z H1 H2 Hz) as (S1 & S2 & S3 & S4).
  destruct (le_lt_dec 2 (streams (sym s))) as [L|L].
  - destruct (C137_zero_forcing pinv s x _ L Hi Hr Hd) as (Z1 & Z2 & Z3 & Z4). split; [congruence|]. intros t b k Ht Hb Hk.
    rewrite S4, Z4 by congruence.
    rewrite (csum_ext _ (fun _ => RtoC 0)) by (intros; ring). rewrite csum_0. ring.
  - assert (E : streams (sym s) = 1%nat) by lia.
    assert (T : tx s = 1%nat).
    { destruct (le_lt_dec (tx s) 1) as [T|T]; [lia|]. exfalso.
      assert (R : mmse pinv s = Raise RuntimeError) by (apply C137_mmse_raises; [lia|split; [lia|reflexivity]]). congruence. }
    split; [rewrite S1, T; unfold zero_forcing; rewrite E; reflexivity|]. intros t b k Ht Hb Hk.
    assert (t = 0%nat) by lia. subst t. rewrite T in *.
    assert (N : states s 0%nat 0%nat b k <> RtoC 0).
    { intro Q. specialize (Hd b k Hb Hk (fun _ => RtoC 0) (fun _ => RtoC 1)). cbv beta in Hd.
      assert (F : RtoC 0 = RtoC 1).
      { apply (Hd) with (k := 0%nat); [|lia]. intros i Hii. assert (i = 0%nat) by lia. subst i. cbn [csum]. rewrite Q. ring. }
      apply (f_equal fst) in F. cbn in F. lra. }
    assert (G : raw z 0%nat b k = raw (sym s) 0%nat b k / states s 0%nat 0%nat b k).
    { revert Hz. unfold mmse. rewrite T, E. cbn [Nat.ltb Nat.leb andb]. intro Hz. injection Hz as <-. cbn [raw]. f_equal. ring. }
    rewrite G, (Hr 0%nat b k) by lia. rewrite T. cbn [csum]. field. exact N.
Qed.
Print Assumptions C137_mmse.

(** Two receiving streams of a single transmitted one over equal channels *)
Definition ex_stated : stated :=
  {| sym := {| streams := 2; blocks := 1; width := 1; raw := fun _ _ _ => RtoC 3 |}; tx := 1; states := fun _ _ _ _ => RtoC 1 |}.
Definition ex_pinv : pinv_fun := fun _ _ _ _ _ => RtoC (/ 2).
Example C137_zero_forcing_met : inverts ex_pinv ex_stated /\ received ex_stated (fun _ _ _ => RtoC 3) (fun _ _ _ => RtoC 0) /\
  (forall b k, distinguishes 2 1 (fun r t => states ex_stated r t b k)) /\ raw (zero_forcing ex_pinv ex_stated) 0%nat 0%nat 0%nat = RtoC 3.
Proof.
  split; [|split; [|split]].
  - intros b k _ _. unfold pseudo_inverse, mul, conj, ex_pinv. cbn. unfold Cconj, Cmult, Cplus, RtoC. cbn.
    repeat split; intros; f_equal; lra.
  - intros r b k _ _ _. cbn. ring.
  - intros b k x y H j Hj. assert (j = 0%nat) by lia. subst j. specialize (H 0%nat ltac:(lia)). cbn in H.
    replace (x 0%nat) with (RtoC 0 + RtoC 1 * x 0%nat) by ring. rewrite H. ring.
  - cbn. unfold ex_pinv, Cmult, Cplus, RtoC. cbn. f_equal; lra.
Qed.
Example C137_mmse_raises_met : forall pinv f g, mmse pinv {| sym := {| streams := 1; blocks := 1; width := 1; raw := f |}; tx := 2; states := g |} = Raise RuntimeError.
Proof. reflexivity. Qed.
