(** Proofs about symbol mapping. *)
From Coq Require Import Reals List Arith Bool Lia Lra ZArith.
From Verif Require Import Base BaseLemmas Qam_Model Qam_Spec QamPam_Proofs.
Import ListNotations.
Open Scope R_scope.

(** *** Lists *)
Lemma nth_error_nth_eq {A} (l : list A) k d : (k < length l)%nat -> nth_error l k = Some (nth k l d).
Proof. intro H. apply nth_error_nth'. exact H. Qed.
Lemma interleave_app {A} (a1 : list A) : forall b1 a2 b2, length a1 = length b1 ->
  interleave (a1 ++ a2) (b1 ++ b2) = interleave a1 b1 ++ interleave a2 b2.
Proof.
  induction a1 as [|x a1 IH]; intros [|y b1] a2 b2 H; try discriminate; [reflexivity|].
  cbn [app interleave]. rewrite IH by (cbn in H; lia). reflexivity.
Qed.
Lemma interleave_len {A} (a : list A) : forall b, length a = length b -> length (interleave a b) = (2 * length a)%nat.
Proof. induction a as [|x a IH]; intros [|y b] H; try discriminate; [reflexivity|]. cbn in *. rewrite IH by lia. lia. Qed.
Lemma interleave_nth {A} (a : list A) : forall b k, length a = length b ->
  nth_error (interleave a b) (2 * k) = nth_error a k /\ nth_error (interleave a b) (2 * k + 1) = nth_error b k.
Proof.
  induction a as [|x a IH]; intros [|y b] k H; try discriminate.
  - cbn [interleave]. destruct k; split; try reflexivity; cbn; destruct (k + S (k + 0))%nat; reflexivity.
  - destruct k as [|k]; [split; reflexivity|]. replace (2 * S k)%nat with (S (S (2 * k))) by lia.
    replace (S (S (2 * k)) + 1)%nat with (S (S (2 * k + 1))) by lia. cbn [interleave nth_error]. apply IH. cbn in H. lia.
Qed.
Lemma evens_interleave {A} (a : list A) : forall b, length a = length b -> evens (interleave a b) = a.
Proof. induction a as [|x a IH]; intros [|y b] H; try discriminate; [reflexivity|]. cbn [interleave evens]. rewrite IH by (cbn in H; lia). reflexivity. Qed.
Lemma odds_interleave {A} (a : list A) : forall b, length a = length b -> odds (interleave a b) = b.
Proof.
  induction a as [|x a IH]; intros [|y b] H; try discriminate; [reflexivity|]. unfold odds. cbn [interleave tl].
  destruct a as [|x' a], b as [|y' b]; try discriminate; [reflexivity|]. cbn [interleave evens].
  f_equal. specialize (IH (y' :: b)). unfold odds in IH. cbn [interleave tl] in IH. apply IH. cbn in *. lia.
Qed.
Lemma split_pairs {A} n : forall l : list A, length l = (2 * n)%nat ->
  length (evens l) = n /\ length (odds l) = n /\ interleave (evens l) (odds l) = l.
Proof.
  induction n as [|n IH]; intros l H.
  - destruct l; [auto|discriminate].
  - destruct l as [|x [|y l]]; cbn in H; try lia. destruct (IH l ltac:(lia)) as [H1 [H2 H3]].
    assert (E : odds (x :: y :: l) = y :: odds l) by (unfold odds; cbn [tl]; destruct l as [|z l]; [reflexivity|]; destruct l; reflexivity).
    rewrite E. cbn [evens interleave length]. rewrite H1, H2, H3. auto.
Qed.
Lemma concat_nth {A} n (L : list (list A)) : Forall (fun l => length l = n) L -> forall i k l, nth_error L i = Some l -> (k < n)%nat ->
  nth_error (concat L) (i * n + k) = nth_error l k.
Proof.
  induction 1 as [|x L Hx HL IH]; intros i k l Hi Hk; [destruct i; discriminate|]. cbn [concat]. destruct i as [|i].
  - cbn in Hi. injection Hi as <-. cbn [Nat.mul Nat.add]. apply nth_error_app1. lia.
  - cbn in Hi. rewrite nth_error_app2 by (cbn; lia). rewrite <- (IH i k l Hi Hk). f_equal. cbn. lia.
Qed.
Lemma interleave_concat {A} n : forall (a b : list (list A)), Forall (fun l => length l = n) a -> Forall (fun l => length l = n) b ->
  length a = length b -> interleave (concat a) (concat b) = concat (map (fun p => interleave (fst p) (snd p)) (combine a b)).
Proof.
  induction a as [|x a IH]; intros [|y b] Ha Hb L; try discriminate; [reflexivity|].
  inversion Ha; inversion Hb; subst. cbn [concat combine map fst snd]. rewrite interleave_app by congruence. f_equal. apply IH; auto.
Qed.
Lemma hamming_app a1 : forall b1 a2 b2, length a1 = length b1 -> hamming (a1 ++ a2) (b1 ++ b2) = (hamming a1 b1 + hamming a2 b2)%nat.
Proof. induction a1 as [|x a IH]; intros [|y b] a2 b2 H; try discriminate; [reflexivity|]. cbn [app hamming]. rewrite IH by (cbn in H; lia). lia. Qed.
Lemma hamming_interleave a : forall b a' b', length a = length b -> length a' = length b' ->
  length a = length a' -> hamming (interleave a b) (interleave a' b') = (hamming a a' + hamming b b')%nat.
Proof.
  induction a as [|x a IH]; intros [|y b] [|x' a'] [|y' b'] H1 H2 H3; try discriminate; [reflexivity|].
  cbn [interleave hamming]. rewrite IH by (cbn in *; lia). lia.
Qed.
Lemma hamming_refl a : hamming a a = 0%nat.
Proof. induction a as [|x a IH]; [reflexivity|]. cbn. rewrite eqb_reflx, IH. reflexivity. Qed.

(** *** One dimension *)
Definition n_o (o : nat) : R := match o with 2%nat => 1 | 4%nat => 5 | 8%nat => 21 | _ => 85 end.
Definition NN (o : nat) (q : bool) : R := (if q then 2 else 1) * n_o o.
Definition nrm (o : nat) (q : bool) : R := sqrt (NN o q).
Lemma NN_pos o q : 0 < NN o q.
Proof. unfold NN, n_o. destruct q; destruct o as [|[|[|[|[|[|[|[|[|?]]]]]]]]]; lra. Qed.
Lemma nrm_pos o q : 0 < nrm o q.
Proof. apply sqrt_lt_R0, NN_pos. Qed.
Lemma nrm_sq o q : nrm o q * nrm o q = NN o q.
Proof. apply sqrt_sqrt. left. apply NN_pos. Qed.
Lemma raw_len o x : supported o -> length (raw o x) = pam_bits o.
Proof. intros [->|[->|[->| ->]]]; reflexivity. Qed.
Lemma llr_raw o r nv q : supported o -> llr o r nv q = Ok (map (fun v => v / nv / NN o q) (raw o (r * nrm o q))).
Proof.
  intro S.
  assert (E : forall c, 0 <= c -> r * sqrt 2 * sqrt c = r * sqrt (2 * c)) by (intros c Hc; rewrite sqrt_mult by lra; ring).
  assert (D : forall v c, c <> 0 -> v / nv / c / 2 = v / nv / (2 * c)) by (intros v c Hc; unfold Rdiv; rewrite Rinv_mult; ring).
  destruct S as [->|[->|[->| ->]]]; destruct q; unfold llr, nrm, NN, n_o; cbn [bind raw]; f_equal.
  - rewrite map_map. replace (2 * 1) with 2 by ring. apply map_ext. intro v. unfold Rdiv. ring.
  - replace (1 * 1) with 1 by ring. rewrite sqrt_1, Rmult_1_r. apply map_ext. intro v. unfold Rdiv. rewrite Rinv_1. ring.
  - rewrite map_map, E by lra. apply map_ext. intro v. apply D. lra.
  - rewrite Rmult_1_l. reflexivity.
  - rewrite map_map, E by lra. apply map_ext. intro v. apply D. lra.
  - rewrite Rmult_1_l. reflexivity.
  - rewrite map_map, E by lra. apply map_ext. intro v. apply D. lra.
  - rewrite Rmult_1_l. reflexivity.
Qed.
Lemma scale_sq o q r p : sq (r * nrm o q - p) = NN o q * sq (r - p / nrm o q).
Proof. rewrite <- nrm_sq. unfold sq. field. pose proof (nrm_pos o q). lra. Qed.
Lemma pam_ok o b : supported o -> exists p, pam o b = Ok p.
Proof. intros [->|[->|[->| ->]]]; eexists; reflexivity. Qed.

(** closest in one scaled dimension *)
Definition closest_dim (o : nat) (q : bool) (r : R) (k : nat) (v : bool) (b : list bool) (p : R) : Prop :=
  length b = pam_bits o /\ nth_error b k = Some v /\ pam o b = Ok p /\
  forall b' p', length b' = pam_bits o -> nth_error b' k = Some v -> pam o b' = Ok p' -> sq (r - p / nrm o q) <= sq (r - p' / nrm o q).
Lemma closest_scale o q r k v b p : (k < pam_bits o)%nat -> closest o (r * nrm o q) k v b p -> closest_dim o q r k v b p.
Proof.
  intros Hk [L [Hn [Hp H]]]. split; [exact L|]. split; [rewrite (nth_error_nth_eq b k false) by lia; rewrite Hn; reflexivity|].
  split; [exact Hp|]. intros b' p' L' Hn' Hp'. rewrite (nth_error_nth_eq b' k false) in Hn' by lia.
  assert (Inj : forall a c : bool, Some a = Some c -> a = c) by (intros a c E; injection E; auto). apply Inj in Hn'.
  specialize (H b' p' L' Hn' Hp'). rewrite !scale_sq in H. apply Rmult_le_reg_l in H; [exact H|apply NN_pos].
Qed.
Lemma dim_max_log o q r nv k : supported o -> (k < pam_bits o)%nat -> exists b0 b1 p0 p1 l,
  closest_dim o q r k false b0 p0 /\ closest_dim o q r k true b1 p1 /\ llr o r nv q = Ok l /\ length l = pam_bits o /\
  nth_error l k = Some (kappa o * (sq (r - p0 / nrm o q) - sq (r - p1 / nrm o q)) / nv).
Proof.
  intros Ho Hk. destruct (pam_max_log o (r * nrm o q) k Ho Hk) as [b0 [b1 [p0 [p1 [C0 [C1 E]]]]]].
  exists b0, b1, p0, p1. eexists. split; [apply closest_scale; assumption|]. split; [apply closest_scale; assumption|].
  split; [apply llr_raw, Ho|]. split; [rewrite map_length; apply raw_len, Ho|].
  rewrite nth_error_map', (nth_error_nth_eq _ k 0) by (rewrite raw_len; assumption). rewrite E. cbn [option_map]. f_equal.
  rewrite !scale_sq. pose proof (NN_pos o q). unfold Rdiv. rewrite <- Rmult_minus_distr_l. set (d := sq _ - sq _). 
  transitivity (kappa o * d * / nv * (NN o q * / NN o q)); [ring|]. rewrite Rinv_r by lra. ring.
Qed.
(** nearest pattern in one dimension *)
Lemma dim_nearest o q r : supported o -> exists b p, length b = pam_bits o /\ pam o b = Ok p /\
  forall b' p', length b' = pam_bits o -> pam o b' = Ok p' -> sq (r - p / nrm o q) <= sq (r - p' / nrm o q).
Proof.
  intro Ho. assert (Hk : (0 < pam_bits o)%nat) by (destruct Ho as [->|[->|[->| ->]]]; cbn; lia).
  destruct (dim_max_log o q r 1 0 Ho Hk) as [b0 [b1 [p0 [p1 [l [[L0 [N0 [P0 C0]]] [[L1 [N1 [P1 C1]]] _]]]]]]].
  assert (D : forall b' p', length b' = pam_bits o -> pam o b' = Ok p' ->
    sq (r - p0 / nrm o q) <= sq (r - p' / nrm o q) \/ sq (r - p1 / nrm o q) <= sq (r - p' / nrm o q)).
  { intros b' p' L' P'. destruct (nth_error b' 0) as [[|]|] eqn:E; [right; apply (C1 b' p'); assumption|left; apply (C0 b' p'); assumption|].
    apply nth_error_None in E. lia. }
  destruct (Rle_dec (sq (r - p0 / nrm o q)) (sq (r - p1 / nrm o q))) as [H|H].
  - exists b0, p0. split; [exact L0|]. split; [exact P0|]. intros b' p' L' P'. destruct (D b' p' L' P'); lra.
  - exists b1, p1. split; [exact L1|]. split; [exact P1|]. intros b' p' L' P'. destruct (D b' p' L' P'); lra.
Qed.

(** *** Built-in constellations *)
Record builtin (m : mapper) (o : nat) (q : bool) : Prop := {
  bi_supported : supported o;
  bi_mapping : mapping m = None;
  bi_bps : bps m = (if q then 2 * pam_bits o else pam_bits o)%nat;
  bi_symbol : forall b, symbol m b = if q then qam_symbol o (nrm o true) b else real_symbol o (nrm o false) b;
  bi_soft : forall rx nvs, soft_values m rx nvs =
    if q then do a <- llrs o (map fst rx) nvs true; do b <- llrs o (map snd rx) nvs true; Ok (interleave a b)
    else llrs o (map fst rx) nvs false;
  bi_const : soft_constant m = kappa o;
  bi_order : order m = (2 ^ bps m)%nat }.

Lemma nrm_values : nrm 2 true = sqrt 2 /\ nrm 4 true = sqrt 10 /\ nrm 8 true = sqrt 42 /\ nrm 16 true = sqrt 170 /\
  nrm 2 false = 1 /\ nrm 4 false = sqrt 5 /\ nrm 8 false = sqrt 21 /\ nrm 16 false = sqrt 85.
Proof.
  unfold nrm, NN, n_o. repeat split; try (f_equal; lra). rewrite Rmult_1_l. apply sqrt_1.
Qed.

Lemma builtin_config ord soft cx m : make_mapper ord None soft cx = Ok m ->
  soft_output m = soft /\ order m = ord /\ is_complex m = cx /\
  ((ord = 8%nat /\ cx = true /\ mapping m = Some psk8_map /\ bps m = 3%nat) \/ exists o q, builtin m o q).
Proof.
  unfold make_mapper. destruct ((ord =? 0)%nat || negb (Nat.land ord (ord - 1) =? 0)%nat); [discriminate|].
  destruct nrm_values as [V1 [V2 [V3 [V4 [V5 [V6 [V7 V8]]]]]]].
  assert (D1 : forall v : R, v / 1 = v) by (intro; field).
  assert (E2 : forall b : list bool, (do p <- pam 2 b; Ok (p, 0)) = real_symbol 2 (nrm 2 false) b)
    by (intro b; unfold real_symbol; rewrite V5; cbn [pam bind]; rewrite D1; reflexivity).
  rewrite !andb_true_r. destruct cx; cbn [andb negb].
  - destruct (listed ord mapping_available) eqn:E; [|discriminate]. cbn [negb]. intro H. injection H as <-.
    cbn [soft_output order is_complex mapping bps]. do 3 (split; [reflexivity|]).
    unfold listed, mapping_available in E. cbn [existsb] in E. rewrite !orb_true_iff in E.
    destruct E as [E|[E|[E|[E|[E|[E|[E|E]]]]]]]; try discriminate; apply Nat.eqb_eq in E; subst ord; cbn [Nat.eqb andb].
    + right. exists 2%nat, false. constructor; try reflexivity. left. reflexivity. exact E2.
    + right. exists 2%nat, true. constructor; try reflexivity; try (unfold supported; tauto); rewrite V1; reflexivity.
    + left. auto.
    + right. exists 4%nat, true. constructor; try reflexivity; try (unfold supported; tauto); rewrite V2; reflexivity.
    + right. exists 8%nat, true. constructor; try reflexivity; try (unfold supported; tauto); rewrite V3; reflexivity.
    + right. exists 8%nat, true. constructor; try reflexivity; try (unfold supported; tauto); rewrite V3; reflexivity.
    + right. exists 16%nat, true. constructor; try reflexivity; try (unfold supported; tauto); rewrite V4; reflexivity.
  - destruct (listed ord mapping_available_pam) eqn:E; [|discriminate]. cbn [negb]. intro H. injection H as <-.
    cbn [soft_output order is_complex mapping bps]. do 3 (split; [reflexivity|]). right.
    unfold listed, mapping_available_pam in E. cbn [existsb] in E. rewrite !orb_true_iff in E.
    destruct E as [E|[E|[E|[E|E]]]]; try discriminate; apply Nat.eqb_eq in E; subst ord; cbn [Nat.eqb andb].
    + exists 2%nat, false. constructor; try reflexivity. left. reflexivity. exact E2.
    + exists 4%nat, false. constructor; try reflexivity; try (unfold supported; tauto); rewrite V6; reflexivity.
    + exists 8%nat, false. constructor; try reflexivity; try (unfold supported; tauto); rewrite V7; reflexivity.
    + exists 16%nat, false. constructor; try reflexivity; try (unfold supported; tauto); rewrite V8; reflexivity.
Qed.

(** *** Soft outputs *)
Lemma llrs_spec o rs nvs q : supported o -> length rs = length nvs ->
  exists L, llrs o rs nvs q = Ok (concat L) /\ length L = length rs /\ Forall (fun l => length l = pam_bits o) L /\
    forall i r v, nth_error rs i = Some r -> nth_error nvs i = Some v -> exists l, nth_error L i = Some l /\ llr o r v q = Ok l.
Proof.
  intros Ho HL. unfold llrs.
  set (g := fun p : R * R => map (fun v => v / snd p / NN o q) (raw o (fst p * nrm o q))).
  rewrite (mapM_ok_map _ g) by (intros [r v] _; apply llr_raw, Ho). cbn [bind]. eexists. split; [reflexivity|].
  split; [rewrite map_length, combine_length; lia|]. split.
  - apply Forall_forall. intros l Hl. apply in_map_iff in Hl. destruct Hl as [p [<- _]]. unfold g. rewrite map_length. apply raw_len, Ho.
  - intros i r v Hr Hv. exists (g (r, v)). split; [|apply llr_raw, Ho]. rewrite nth_error_map'.
    assert (E : forall (a b : list R) j, nth_error a j = Some r -> nth_error b j = Some v -> nth_error (combine a b) j = Some (r, v)).
    { clear. induction a as [|x a IH]; intros [|y b] [|j] Ha Hb; try discriminate; cbn in *; [congruence|]. apply IH; assumption. }
    rewrite (E rs nvs i Hr Hv). reflexivity.
Qed.
Lemma labels_builtin m o q b s : builtin m o q -> labels m b s ->
  if q then exists p1 p2, pam o (evens b) = Ok p1 /\ pam o (odds b) = Ok p2 /\ length (evens b) = pam_bits o /\ length (odds b) = pam_bits o /\
    interleave (evens b) (odds b) = b /\ s = (p1 / nrm o true, p2 / nrm o true)
  else exists p, pam o b = Ok p /\ length b = pam_bits o /\ s = (p / nrm o false, 0).
Proof.
  intros B [L E]. pose proof (bi_supported _ _ _ B) as S. rewrite (bi_bps _ _ _ B) in L. rewrite (bi_symbol _ _ _ B) in E. destruct q.
  - destruct (split_pairs (pam_bits o) b L) as [H1 [H2 H3]]. unfold qam_symbol in E.
    destruct (pam_ok o (evens b) S) as [p1 P1]. destruct (pam_ok o (odds b) S) as [p2 P2]. rewrite P1, P2 in E. cbn [bind] in E.
    exists p1, p2. do 5 (split; [assumption|]). injection E. intros <- . reflexivity.
  - unfold real_symbol in E. destruct (pam_ok o b S) as [p P]. rewrite P in E. cbn [bind] in E. exists p. split; [exact P|]. split; [exact L|].
    injection E. intros <-. reflexivity.
Qed.
Lemma builtin_labels_qam m o a b p1 p2 : builtin m o true -> length a = pam_bits o -> length b = pam_bits o ->
  pam o a = Ok p1 -> pam o b = Ok p2 -> labels m (interleave a b) (p1 / nrm o true, p2 / nrm o true).
Proof.
  intros B La Lb P1 P2. split.
  - rewrite interleave_len by congruence. rewrite (bi_bps _ _ _ B), La. reflexivity.
  - rewrite (bi_symbol _ _ _ B). unfold qam_symbol. rewrite evens_interleave, odds_interleave by congruence. rewrite P1, P2. reflexivity.
Qed.
Lemma builtin_labels_real m o b p : builtin m o false -> length b = pam_bits o -> pam o b = Ok p -> labels m b (p / nrm o false, 0).
Proof.
  intros B L P. split; [rewrite (bi_bps _ _ _ B); exact L|]. rewrite (bi_symbol _ _ _ B). unfold real_symbol. rewrite P. reflexivity.
Qed.
Lemma dist2_sq y s : dist2 y s = sq (fst y - fst s) + sq (snd y - snd s).
Proof. reflexivity. Qed.

Lemma builtin_soft m o q : builtin m o q -> forall rx nvs, length rx = length nvs ->
  exists l, soft_values m rx nvs = Ok l /\ length l = (length rx * bps m)%nat /\
    forall i k y v, nth_error rx i = Some y -> nth_error nvs i = Some v -> (k < bps m)%nat ->
      exists s0 s1, nearest m y k false s0 /\ nearest m y k true s1 /\
        nth_error l (i * bps m + k) = Some (soft_constant m * (dist2 y s0 - dist2 y s1) / v).
Proof.
  intros B rx nvs HL. pose proof (bi_supported _ _ _ B) as S. rewrite (bi_soft _ _ _ B), (bi_const _ _ _ B).
  destruct q.
  - destruct (llrs_spec o (map fst rx) nvs true S ltac:(rewrite map_length; exact HL)) as [LA [EA [NA [FA HA]]]].
    destruct (llrs_spec o (map snd rx) nvs true S ltac:(rewrite map_length; exact HL)) as [LB [EB [NB [FB HB]]]].
    rewrite EA, EB. cbn [bind]. rewrite map_length in NA, NB.
    rewrite (interleave_concat (pam_bits o) LA LB FA FB ltac:(congruence)).
    set (L := map (fun p => interleave (fst p) (snd p)) (combine LA LB)).
    assert (NL : forall i la lb, nth_error LA i = Some la -> nth_error LB i = Some lb -> nth_error L i = Some (interleave la lb)).
    { intros i la lb Hla Hlb. unfold L. rewrite nth_error_map'.
      assert (E : forall (a b : list (list R)) j, nth_error a j = Some la -> nth_error b j = Some lb -> nth_error (combine a b) j = Some (la, lb)).
      { clear. induction a as [|x a IH]; intros [|y b] [|j] Ha Hb; try discriminate; cbn in *; [congruence|]. apply IH; assumption. }
      rewrite (E LA LB i Hla Hlb). reflexivity. }
    assert (FL : Forall (fun l => length l = bps m) L).
    { apply Forall_forall. intros l Hl. apply in_map_iff in Hl. destruct Hl as [[a b] [<- Hab]].
      pose proof (in_combine_l _ _ _ _ Hab) as Ia. pose proof (in_combine_r _ _ _ _ Hab) as Ib.
      pose proof (proj1 (Forall_forall _ _) FA a Ia) as Xa. pose proof (proj1 (Forall_forall _ _) FB b Ib) as Xb. cbn beta in Xa, Xb.
      cbn [fst snd]. rewrite interleave_len by congruence. rewrite Xa, (bi_bps _ _ _ B). reflexivity. }
    eexists. split; [reflexivity|]. split.
    { rewrite (length_concat_const (bps m) L FL). f_equal. unfold L. rewrite map_length, combine_length. rewrite NA, NB. apply Nat.min_id. }
    intros i k y v Hy Hv Hk.
    assert (Hy1 : nth_error (map fst rx) i = Some (fst y)) by (apply map_nth_error; exact Hy).
    assert (Hy2 : nth_error (map snd rx) i = Some (snd y)) by (apply map_nth_error; exact Hy).
    destruct (HA i _ _ Hy1 Hv) as [la [Ela Lla]]. destruct (HB i _ _ Hy2 Hv) as [lb [Elb Llb]].
    pose proof (proj1 (Forall_forall _ _) FA la (nth_error_In _ _ Ela)) as Xa. pose proof (proj1 (Forall_forall _ _) FB lb (nth_error_In _ _ Elb)) as Xb. cbn beta in Xa, Xb.
    rewrite (concat_nth (bps m) L FL i k _ (NL i la lb Ela Elb) Hk).
    rewrite (bi_bps _ _ _ B) in Hk. destruct (interleave_nth la lb (k / 2) ltac:(congruence)) as [I1 I2].
    pose proof (Nat.div_mod k 2 ltac:(lia)) as DM. pose proof (Nat.mod_upper_bound k 2 ltac:(lia)) as MB.
    destruct (k mod 2)%nat as [|[|r]] eqn:EM; [| |lia].
    + (* bit of the real part *)
      assert (Hk2 : (k / 2 < pam_bits o)%nat) by lia. assert (IK : nth_error (interleave la lb) k = nth_error la (k / 2)) by (rewrite <- I1; f_equal; lia). rewrite IK.
      destruct (dim_max_log o true (fst y) v (k / 2) S Hk2) as [b0 [b1 [p0 [p1 [l [C0 [C1 [El [Ll En]]]]]]]]].
      rewrite Lla in El. injection El as <-. destruct (dim_nearest o true (snd y) S) as [bq [pq [Lq [Pq Nq]]]].
      exists (p0 / nrm o true, pq / nrm o true), (p1 / nrm o true, pq / nrm o true).
      assert (G : forall v' b p, closest_dim o true (fst y) (k / 2) v' b p -> nearest m y k v' (p / nrm o true, pq / nrm o true)).
      { intros v' b p [Lb [Nb [Pb Cb]]]. split.
        - exists (interleave b bq). split; [apply builtin_labels_qam; assumption|].
          destruct (interleave_nth b bq (k / 2) ltac:(congruence)) as [J _]. rewrite <- Nb, <- J. f_equal. lia.
        - intros b' s' Hl Hb'. destruct (labels_builtin m o true b' s' B Hl) as [x1 [x2 [X1 [X2 [LX1 [LX2 [EX ->]]]]]]].
          destruct (interleave_nth (evens b') (odds b') (k / 2) ltac:(congruence)) as [J _]. rewrite EX in J.
          replace (2 * (k / 2))%nat with k in J by lia. rewrite J in Hb'.
          specialize (Cb _ _ LX1 Hb' X1). specialize (Nq _ _ LX2 X2). rewrite !dist2_sq. cbn [fst snd]. lra. }
      split; [exact (G _ _ _ C0)|]. split; [exact (G _ _ _ C1)|]. rewrite En. f_equal. rewrite !dist2_sq. cbn [fst snd]. unfold Rdiv. ring.
    + (* bit of the imaginary part *)
      assert (Hk2 : (k / 2 < pam_bits o)%nat) by lia. assert (IK : nth_error (interleave la lb) k = nth_error lb (k / 2)) by (rewrite <- I2; f_equal; lia). rewrite IK.
      destruct (dim_max_log o true (snd y) v (k / 2) S Hk2) as [b0 [b1 [p0 [p1 [l [C0 [C1 [El [Ll En]]]]]]]]].
      rewrite Llb in El. injection El as <-. destruct (dim_nearest o true (fst y) S) as [bq [pq [Lq [Pq Nq]]]].
      exists (pq / nrm o true, p0 / nrm o true), (pq / nrm o true, p1 / nrm o true).
      assert (G : forall v' b p, closest_dim o true (snd y) (k / 2) v' b p -> nearest m y k v' (pq / nrm o true, p / nrm o true)).
      { intros v' b p [Lb [Nb [Pb Cb]]]. split.
        - exists (interleave bq b). split; [apply builtin_labels_qam; assumption|].
          destruct (interleave_nth bq b (k / 2) ltac:(congruence)) as [_ J]. rewrite <- Nb, <- J. f_equal. lia.
        - intros b' s' Hl Hb'. destruct (labels_builtin m o true b' s' B Hl) as [x1 [x2 [X1 [X2 [LX1 [LX2 [EX ->]]]]]]].
          destruct (interleave_nth (evens b') (odds b') (k / 2) ltac:(congruence)) as [_ J]. rewrite EX in J.
          replace (2 * (k / 2) + 1)%nat with k in J by lia. rewrite J in Hb'.
          specialize (Cb _ _ LX2 Hb' X2). specialize (Nq _ _ LX1 X1). rewrite !dist2_sq. cbn [fst snd]. lra. }
      split; [exact (G _ _ _ C0)|]. split; [exact (G _ _ _ C1)|]. rewrite En. f_equal. rewrite !dist2_sq. cbn [fst snd]. unfold Rdiv. ring.
  - destruct (llrs_spec o (map fst rx) nvs false S ltac:(rewrite map_length; exact HL)) as [LA [EA [NA [FA HA]]]].
    rewrite map_length in NA. rewrite <- (bi_bps _ _ _ B) in FA.
    eexists. split; [exact EA|]. split; [rewrite (length_concat_const (bps m) LA FA), NA; reflexivity|].
    intros i k y v Hy Hv Hk.
    assert (Hy1 : nth_error (map fst rx) i = Some (fst y)) by (apply map_nth_error; exact Hy).
    destruct (HA i _ _ Hy1 Hv) as [la [Ela Lla]]. rewrite (concat_nth (bps m) LA FA i k _ Ela Hk).
    rewrite (bi_bps _ _ _ B) in Hk.
    destruct (dim_max_log o false (fst y) v k S Hk) as [b0 [b1 [p0 [p1 [l [C0 [C1 [El [Ll En]]]]]]]]].
    rewrite Lla in El. injection El as <-. exists (p0 / nrm o false, 0), (p1 / nrm o false, 0).
    assert (G : forall v' b p, closest_dim o false (fst y) k v' b p -> nearest m y k v' (p / nrm o false, 0)).
    { intros v' b p [Lb [Nb [Pb Cb]]]. split.
      - exists b. split; [apply builtin_labels_real; assumption|exact Nb].
      - intros b' s' Hl Hb'. destruct (labels_builtin m o false b' s' B Hl) as [x1 [X1 [LX1 ->]]].
        specialize (Cb _ _ LX1 Hb' X1). rewrite !dist2_sq. cbn [fst snd]. lra. }
    split; [exact (G _ _ _ C0)|]. split; [exact (G _ _ _ C1)|]. rewrite En. f_equal. rewrite !dist2_sq. cbn [fst snd]. unfold Rdiv. ring.
Qed.
