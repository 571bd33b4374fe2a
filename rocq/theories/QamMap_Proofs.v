(** Hard decisions, distances and energies of constellations. *)
From Coq Require Import Reals List Arith Bool Lia Lra ZArith.
From Verif Require Import Base BaseLemmas Qam_Model Qam_Spec QamPam_Proofs Qam_Proofs.
Import ListNotations.
Open Scope R_scope.

Lemma dist2_nonneg y s : 0 <= dist2 y s.
Proof. rewrite dist2_sq. unfold sq. pose proof (Rle_0_sqr (fst y - fst s)). pose proof (Rle_0_sqr (snd y - snd s)). unfold Rsqr in *. lra. Qed.
Lemma dist2_refl s : dist2 s s = 0.
Proof. rewrite dist2_sq. unfold sq. ring. Qed.

(** *** Binary numbers *)
Open Scope nat_scope.
Lemma land_pow2 x j : negb (Nat.land x (2 ^ j) =? 0) = Nat.testbit x j.
Proof.
  assert (E : Nat.land x (2 ^ j) = if Nat.testbit x j then 2 ^ j else 0).
  { apply Nat.bits_inj. intro i. rewrite Nat.land_spec, Nat.pow2_bits_eqb. destruct (Nat.eqb_spec j i) as [->|Hne].
    - destruct (Nat.testbit x i); [rewrite Nat.pow2_bits_true; reflexivity|rewrite Nat.bits_0; reflexivity].
    - rewrite andb_false_r. destruct (Nat.testbit x j); [rewrite Nat.pow2_bits_false by auto; reflexivity|rewrite Nat.bits_0; reflexivity]. }
  rewrite E. destruct (Nat.testbit x j); [|reflexivity]. pose proof (Nat.pow_nonzero 2 j ltac:(lia)). destruct (Nat.eqb_spec (2 ^ j) 0); [contradiction|reflexivity].
Qed.
Lemma bits_of_testbit n k : bits_of n k = map (fun i => Nat.testbit k (n - 1 - i)) (seq 0 n).
Proof. unfold bits_of. apply map_ext. intro i. apply land_pow2. Qed.
Lemma bits_of_len n k : length (bits_of n k) = n.
Proof. unfold bits_of. rewrite map_length, seq_length. reflexivity. Qed.
Lemma bits_of_S n k (b : bool) : bits_of (S n) (2 * k + Nat.b2n b) = bits_of n k ++ [b].
Proof.
  rewrite !bits_of_testbit, seq_S, map_app. cbn [Nat.add map]. f_equal.
  - apply map_ext_in. intros i Hi. apply in_seq in Hi. replace (S n - 1 - i) with (S (n - 1 - i)) by lia. apply Nat.testbit_succ_r.
  - f_equal. replace (S n - 1 - n) with 0 by lia. apply Nat.testbit_0_r.
Qed.
Lemma value_snoc b x : value (b ++ [x]) = 2 * value b + Nat.b2n x.
Proof. unfold value. rewrite fold_left_app. cbn [fold_left]. destruct x; reflexivity. Qed.
Lemma bits_of_value b : bits_of (length b) (value b) = b.
Proof.
  induction b as [|x b IH] using rev_ind; [reflexivity|]. rewrite app_length. cbn [length]. rewrite Nat.add_comm. cbn [Nat.add].
  rewrite value_snoc, bits_of_S, IH. reflexivity.
Qed.
Lemma value_bits_of n : forall k, k < 2 ^ n -> value (bits_of n k) = k.
Proof.
  induction n as [|n IH]; intros k H; [cbn in *; lia|].
  pose proof (Nat.div_mod k 2 ltac:(lia)) as E. pose proof (Nat.mod_upper_bound k 2 ltac:(lia)) as U.
  assert (exists b, k mod 2 = Nat.b2n b) as [b Hb] by (destruct (k mod 2) as [|[|?]]; [exists false|exists true|lia]; reflexivity).
  rewrite Hb in E. rewrite E, bits_of_S, value_snoc, IH; [reflexivity|]. cbn in H. lia.
Qed.
Lemma value_lt b : value b < 2 ^ length b.
Proof.
  induction b as [|x b IH] using rev_ind; [cbn; lia|]. rewrite value_snoc, app_length. cbn [length]. replace (length b + 1) with (S (length b)) by lia. cbn [Nat.pow].
  destruct x; cbn [Nat.b2n]; lia.
Qed.
Lemma power_of_two n : 0 < n -> Nat.land n (n - 1) = 0 -> n = 2 ^ Nat.log2 n.
Proof.
  intros P H. destruct (Nat.log2_spec n P) as [L U]. destruct (Nat.eq_dec n (2 ^ Nat.log2 n)) as [E|NE]; [exact E|exfalso].
  set (k := Nat.log2 n) in *. assert (B1 : Nat.testbit n k = true) by (apply Nat.bit_log2; lia).
  assert (B2 : Nat.testbit (n - 1) k = true).
  { assert (E : Nat.log2 (n - 1) = k) by (apply Nat.log2_unique; [lia|split; [lia|]; cbn in U |- *; lia]). rewrite <- E. apply Nat.bit_log2.
    pose proof (Nat.pow_nonzero 2 k ltac:(lia)). lia. }
  assert (B : Nat.testbit (Nat.land n (n - 1)) k = true) by (rewrite Nat.land_spec, B1, B2; reflexivity). rewrite H, Nat.bits_0 in B. discriminate.
Qed.
Close Scope nat_scope.

(** *** Closest points of tables *)
Lemma argmin_from_spec y : forall l k bst d i, argmin_from y l k bst d = i ->
  (i = bst /\ (forall j s, nth_error l j = Some s -> d <= distance y s)) \/
  (exists j s, i = (k + j)%nat /\ nth_error l j = Some s /\ distance y s < d /\ forall j' s', nth_error l j' = Some s' -> distance y s <= distance y s').
Proof.
  induction l as [|s l IH]; intros k bst d i H; cbn [argmin_from] in H.
  - left. split; [auto|]. intros [|j] s E; discriminate.
  - destruct (Rlt_dec (distance y s) d) as [Hd|Hd]; apply IH in H; destruct H as [[-> H]|[j [s' [-> [E [Hlt H]]]]]].
    + right. exists 0%nat, s. split; [lia|]. split; [reflexivity|]. split; [exact Hd|]. intros [|j'] s' E'; [injection E' as <-; lra|]. apply (H j' s' E').
    + right. exists (S j), s'. split; [lia|]. split; [exact E|]. split; [lra|]. intros [|j'] t E'; [injection E' as <-; lra|]. apply (H j' t E').
    + left. split; [reflexivity|]. intros [|j] t E; [injection E as <-; lra|]. apply (H j t E).
    + right. exists (S j), s'. split; [lia|]. split; [exact E|]. split; [exact Hlt|]. intros [|j'] t E'; [injection E' as <-; lra|]. apply (H j' t E').
Qed.
Lemma argmin_spec y l : l <> [] -> exists s, nth_error l (argmin y l) = Some s /\ forall j s', nth_error l j = Some s' -> distance y s <= distance y s'.
Proof.
  destruct l as [|s l]; [contradiction|]. intros _. unfold argmin. destruct (argmin_from_spec y l 1 0 (distance y s) _ eq_refl) as [[-> H]|[j [t [-> [E [Hlt H]]]]]].
  - exists s. split; [reflexivity|]. intros [|j] t E; [injection E as <-; lra|]. apply (H j t E).
  - exists t. split; [exact E|]. intros [|j'] t' E'; [injection E' as <-; lra|]. apply (H j' t' E').
Qed.
Lemma distance_le y s s' : distance y s <= distance y s' <-> dist2 y s <= dist2 y s'.
Proof.
  unfold distance. fold (dist2 y s) (dist2 y s'). pose proof (dist2_nonneg y s). pose proof (dist2_nonneg y s'). split; intro H1.
  - apply sqrt_le_0; assumption.
  - apply sqrt_le_1; assumption.
Qed.

(** *** The loop over bit offsets *)
Lemma nth_firstn_cons_skipn (l : list R) off v : (off < length l)%nat -> forall i,
  nth i (firstn off l ++ v :: skipn (S off) l) 0 = if (i =? off)%nat then v else nth i l 0.
Proof.
  intros H i. destruct (Nat.eqb_spec i off) as [->|NE].
  - rewrite app_nth2 by (rewrite firstn_length; lia). rewrite firstn_length. replace (off - Nat.min off (length l))%nat with 0%nat by lia. reflexivity.
  - transitivity (nth i (firstn off l ++ skipn off l) 0); [|rewrite firstn_skipn; reflexivity]. destruct (Nat.lt_ge_cases i off) as [L|L].
    + rewrite !app_nth1 by (rewrite firstn_length; lia). reflexivity.
    + rewrite !app_nth2 by (rewrite firstn_length; lia). rewrite firstn_length. replace (Nat.min off (length l)) with off by lia.
      destruct (skipn off l) as [|z r] eqn:E; [assert (K : length (skipn off l) = 0%nat) by (rewrite E; reflexivity); rewrite skipn_length in K; lia|].
      assert (E2 : skipn (S off) l = r) by (replace (S off) with (off + 1)%nat by lia; rewrite <- skipn_skipn', E; reflexivity).
      destruct (i - off)%nat as [|k] eqn:Ek; [lia|]. cbn [nth]. rewrite E2. reflexivity.
Qed.
Definition good (n idx i : nat) (v : R) : Prop :=
  if nth i (bits_of n idx) false then v = 1 else v < 0.
Lemma detect_point_inv n idx : forall offs base l, (offs + base = n)%nat -> length l = n ->
  (forall i, (i < base)%nat -> good n idx i (nth i l 0)) ->
  let l' := fold_left (fun l off => map (fun v => v * 2 - 1)
       (firstn off l ++ ind (negb (Nat.land idx (2 ^ (n - off - 1)) =? 0)%nat) :: skipn (S off) l)) (seq base offs) l in
  length l' = n /\ forall i, (i < n)%nat -> good n idx i (nth i l' 0).
Proof.
  induction offs as [|offs IH]; intros base l E L H.
  - cbn. split; [exact L|]. intros i Hi. apply H. lia.
  - cbn [seq fold_left].
    set (l1 := firstn base l ++ ind _ :: skipn (S base) l).
    assert (L1 : length l1 = n) by (unfold l1; rewrite app_length, firstn_length; cbn [length]; rewrite skipn_length; lia).
    apply IH; [lia|rewrite map_length; exact L1|].
    intros i Hi. rewrite (nth_indep _ 0 (0 * 2 - 1)) by (rewrite map_length; lia).
    rewrite (map_nth (fun v => v * 2 - 1) l1 0 i). unfold l1. rewrite nth_firstn_cons_skipn by lia.
    destruct (Nat.eqb_spec i base) as [->|NE].
    + unfold good. assert (EB : nth base (bits_of n idx) false = negb (Nat.land idx (2 ^ (n - base - 1)) =? 0)%nat).
      { unfold bits_of. rewrite (nth_indep _ false (negb (Nat.land idx (2 ^ (n - 1 - n)) =? 0)%nat)) by (rewrite map_length, seq_length; lia).
        rewrite (map_nth (fun i => negb (Nat.land idx (2 ^ (n - 1 - i)) =? 0)%nat) (seq 0 n) n base). rewrite seq_nth by lia.
        replace (n - 1 - (0 + base))%nat with (n - base - 1)%nat by lia. reflexivity. }
      rewrite EB. destruct (negb _); cbn [ind]; lra.
    + assert (G : good n idx i (nth i l 0)) by (apply H; lia). unfold good in *. destruct (nth i (bits_of n idx) false); lra.
Qed.
Lemma detect_point_bits n idx : map (fun v => rgt v 0) (detect_point n idx) = bits_of n idx.
Proof.
  destruct (detect_point_inv n idx n 0 (repeat 0 n) ltac:(lia) ltac:(apply repeat_length) ltac:(intros; lia)) as [L G].
  fold (detect_point n idx) in L, G. apply nth_ext with (d := rgt 0 0) (d' := false).
  - rewrite map_length, bits_of_len. exact L.
  - intros i Hi. rewrite map_length, L in Hi. rewrite (map_nth (fun v => rgt v 0)). specialize (G i Hi). unfold good in G.
    destruct (nth i (bits_of n idx) false) eqn:E.
    + rewrite G. unfold rgt. rewrite rle_false by lra. reflexivity.
    + unfold rgt. rewrite rle_true by lra. reflexivity.
Qed.

(** *** Mappers with tables *)
Definition table (m : mapper) (l : list cplx) : Prop := mapping m = Some l /\ length l = (2 ^ bps m)%nat.
Lemma table_labels m l j s : table m l -> nth_error l j = Some s -> labels m (bits_of (bps m) j) s.
Proof.
  intros [E L] H. split; [apply bits_of_len|]. unfold symbol. rewrite E, value_bits_of; [rewrite H; reflexivity|].
  rewrite <- L. apply nth_error_Some. congruence.
Qed.
Lemma table_symbol m l b : table m l -> length b = bps m -> exists s, symbol m b = Ok s /\ nth_error l (value b) = Some s.
Proof.
  intros [E L] Hb. unfold symbol. rewrite E. destruct (nth_error l (value b)) as [s|] eqn:En; [eauto|].
  apply nth_error_None in En. pose proof (value_lt b) as K. rewrite Hb, <- L in K. lia.
Qed.
Lemma table_hard m l y b : table m l -> only_nearest m y b -> map (fun v => rgt v 0) (detect_point (bps m) (argmin y l)) = b.
Proof.
  intros T [s [[Lb Sb] H]]. rewrite detect_point_bits.
  destruct (table_symbol m l b T Lb) as [s' [Es En]]. rewrite Sb in Es. injection Es as <-.
  assert (N : l <> []) by (intros ->; destruct (value b); discriminate).
  destruct (argmin_spec y l N) as [t [Et Ht]].
  destruct (list_eq_dec Bool.bool_dec (bits_of (bps m) (argmin y l)) b) as [E|NE]; [exact E|exfalso].
  pose proof (H _ _ (table_labels m l _ t T Et) NE) as K. pose proof (Ht _ _ En) as K'. apply distance_le in K'. lra.
Qed.

Lemma make_mapper_cases ord mp soft cx m : make_mapper ord mp soft cx = Ok m ->
  soft_output m = soft /\ ((exists l, table m l) \/ (mapping m = None /\ exists o q, builtin m o q)).
Proof.
  intro H. destruct mp as [l|].
  - unfold make_mapper in H. destruct ((ord =? 0)%nat || negb (Nat.land ord (ord - 1) =? 0)%nat) eqn:E; [discriminate|].
    apply orb_false_iff in E. destruct E as [E1 E2]. apply Nat.eqb_neq in E1. apply negb_false_iff, Nat.eqb_eq in E2.
    rewrite !andb_false_r in H. destruct (Nat.eqb_spec (length l) ord) as [E3|]; [|discriminate]. cbn [negb] in H. injection H as <-.
    split; [reflexivity|]. left. eexists. split; [reflexivity|]. cbn [bps]. transitivity ord; [rewrite <- E3; apply map_length|]. apply power_of_two; [lia|exact E2].
  - destruct (builtin_config ord soft cx m H) as [E [_ [_ [[_ [_ [Em Eb]]]|[o [q B]]]]]]; (split; [exact E|]).
    + left. exists psk8_map. split; [exact Em|]. rewrite Eb. reflexivity.
    + right. split; [apply (bi_mapping _ _ _ B)|]. eauto.
Qed.
Lemma symbol_total ord mp soft cx m b : make_mapper ord mp soft cx = Ok m -> length b = bps m -> exists s, symbol m b = Ok s.
Proof.
  intros H L. destruct (make_mapper_cases _ _ _ _ _ H) as [_ [[l T]|[_ [o [q B]]]]].
  - destruct (table_symbol m l b T L) as [s [E _]]. eauto.
  - rewrite (bi_symbol _ _ _ B). pose proof (bi_supported _ _ _ B) as S. destruct q.
    + unfold qam_symbol. destruct (pam_ok o (evens b) S) as [p ->], (pam_ok o (odds b) S) as [p' ->]. cbn [bind]. eauto.
    + unfold real_symbol. destruct (pam_ok o b S) as [p ->]. cbn [bind]. eauto.
Qed.

(** Hard decisions pick the only nearest symbol. *)
Lemma nth_error_ext' {A} (l1 : list A) : forall l2, (forall i, nth_error l1 i = nth_error l2 i) -> l1 = l2.
Proof.
  induction l1 as [|x l1 IH]; intros [|y l2] H.
  - reflexivity.
  - specialize (H 0%nat). discriminate.
  - specialize (H 0%nat). discriminate.
  - pose proof (H 0%nat) as H0. cbn in H0. injection H0 as ->. f_equal. apply IH. intro i. apply (H (S i)).
Qed.
Lemma hard_builtin m o q rx nvs bs : builtin m o q -> length rx = length nvs -> Forall (fun v => 0 < v) nvs ->
  Forall2 (only_nearest m) rx bs -> exists l, soft_values m rx nvs = Ok l /\ map (fun v => rgt v 0) l = concat bs.
Proof.
  intros B HL HV HF. destruct (builtin_soft m o q B rx nvs HL) as [l [El [Ll Hl]]]. exists l. split; [exact El|].
  assert (FB : Forall (fun b => length b = bps m) bs) by (clear -HF; induction HF as [|y b ? ? [s [[L _] _]] _ IH]; constructor; auto).
  pose proof (Forall2_len _ _ _ HF) as LB.
  apply nth_error_ext'. intro p. rewrite nth_error_map'.
  destruct (Nat.lt_ge_cases p (length rx * bps m)) as [Hp|Hp].
  - assert (Pb : (0 < bps m)%nat) by (destruct (bps m); lia).
    pose proof (Nat.div_mod p (bps m) ltac:(lia)) as DM. pose proof (Nat.mod_upper_bound p (bps m) ltac:(lia)) as MB.
    assert (Hi : (p / bps m < length rx)%nat) by (apply Nat.div_lt_upper_bound; lia).
    set (i := (p / bps m)%nat) in *. set (k := (p mod bps m)%nat) in *. assert (Ep : p = (i * bps m + k)%nat) by lia.
    destruct (nth_error rx i) as [y|] eqn:Ey; [|apply nth_error_None in Ey; lia].
    destruct (nth_error nvs i) as [v|] eqn:Ev; [|apply nth_error_None in Ev; lia].
    destruct (nth_error bs i) as [b|] eqn:Eb; [|apply nth_error_None in Eb; lia].
    assert (Hon : only_nearest m y b).
    { clearbody i. clear -HF Ey Eb. revert i Ey Eb. induction HF as [|y0 b0 ? ? H0 _ IH]; intros [|i] Ey Eb; try discriminate; [cbn in Ey, Eb; injection Ey as ->; injection Eb as ->; exact H0|]. apply (IH i); assumption. }
    destruct (Hl i k y v Ey Ev MB) as [s0 [s1 [N0 [N1 En]]]]. rewrite Ep, En. rewrite (concat_nth (bps m) bs FB i k b Eb MB). cbn [option_map].
    destruct Hon as [s [[Lb Sb] Hmin]].
    destruct (nth_error b k) as [c|] eqn:Ec; [|apply nth_error_None in Ec; lia]. f_equal.
    assert (Pv : 0 < v) by (apply (proj1 (Forall_forall _ _) HV), nth_error_In with i; exact Ev).
    assert (Pc : 0 < soft_constant m) by (unfold soft_constant; destruct (_ || _); lra).
    assert (Sc : 0 < soft_constant m / v) by (apply Rdiv_lt_0_compat; assumption).
    replace (soft_constant m * (dist2 y s0 - dist2 y s1) / v) with (soft_constant m / v * (dist2 y s0 - dist2 y s1)) by (field; lra).
    destruct N0 as [[b0 [L0 B0]] M0]. destruct N1 as [[b1 [L1 B1]] M1]. destruct c.
    + pose proof (M1 b s (conj Lb Sb) Ec). assert (NE : b0 <> b) by congruence. pose proof (Hmin b0 s0 L0 NE).
      unfold rgt. rewrite rle_false; [reflexivity|]. apply Rmult_lt_0_compat; lra.
    + pose proof (M0 b s (conj Lb Sb) Ec). assert (NE : b1 <> b) by congruence. pose proof (Hmin b1 s1 L1 NE).
      unfold rgt. rewrite rle_true; [reflexivity|]. set (d := dist2 y s0 - dist2 y s1). assert (d <= 0) by (unfold d; lra).
      replace 0 with (soft_constant m / v * 0) by ring. apply Rmult_le_compat_l; lra.
  - assert (E1 : nth_error l p = None) by (apply nth_error_None; lia). rewrite E1. cbn [option_map]. symmetry. apply nth_error_None.
    rewrite (length_concat_const (bps m) bs FB). lia.
Qed.
Lemma hard_any ord mp cx m rx nvs bs : make_mapper ord mp false cx = Ok m -> length rx = length nvs -> Forall (fun v => 0 < v) nvs ->
  Forall2 (only_nearest m) rx bs -> detect_bits m rx nvs = Ok (Hard (concat bs)).
Proof.
  intros Hm HL HV HF. destruct (make_mapper_cases _ _ _ _ _ Hm) as [Es [[l T]|[_ [o [q B]]]]]; unfold detect_bits.
  - unfold soft_values. pose proof T as [E _]. rewrite E, Es. cbn [bind]. f_equal. f_equal. clear HL HV.
    induction HF as [|y b rx bs H HF IH]; [reflexivity|]. cbn [flat_map concat]. rewrite map_app, IH. f_equal. apply table_hard; assumption.
  - destruct (hard_builtin m o q rx nvs bs B HL HV HF) as [l [El E]]. rewrite El. cbn [bind]. rewrite Es, E. reflexivity.
Qed.

(** *** Distances *)
Lemma pam_Z o b : supported o -> pam o b = Ok (IZR (pamZ o b)).
Proof.
  assert (E : forall x : bool, b2r x = IZR (if x then 1 else 0)%Z) by (intros [|]; reflexivity).
  intros [->|[->|[->| ->]]]; cbn [pam pamZ]; rewrite !E; repeat (rewrite ?mult_IZR, ?plus_IZR, ?minus_IZR); reflexivity.
Qed.
Lemma patterns_all n : forall b, length b = n -> In b (patterns n).
Proof.
  induction n as [|n IH]; intros [|x b] H; try discriminate; [left; reflexivity|]. cbn [patterns]. apply in_or_app.
  destruct x; [right|left]; apply in_map, IH; cbn in H; lia.
Qed.
Definition gray_check (o : nat) : bool :=
  forallb (fun a => forallb (fun b =>
    let d := ((pamZ o a - pamZ o b) * (pamZ o a - pamZ o b))%Z in
    if list_eq_dec Bool.bool_dec a b then true else ((4 <? d)%Z || ((d =? 4)%Z && (hamming a b =? 1)%nat)))
    (patterns (pam_bits o))) (patterns (pam_bits o)).
Lemma gray_checked o : supported o -> gray_check o = true.
Proof. intros [->|[->|[->| ->]]]; vm_compute; reflexivity. Qed.
Lemma pam_gray o a b p p' : supported o -> length a = pam_bits o -> length b = pam_bits o -> pam o a = Ok p -> pam o b = Ok p' -> a <> b ->
  4 <= sq (p - p') /\ (sq (p - p') = 4 -> hamming a b = 1%nat).
Proof.
  intros S La Lb Pa Pb NE. rewrite pam_Z in Pa, Pb by exact S. injection Pa as <-. injection Pb as <-.
  pose proof (gray_checked o S) as G. unfold gray_check in G. rewrite forallb_forall in G. specialize (G a (patterns_all _ a La)).
  rewrite forallb_forall in G. specialize (G b (patterns_all _ b Lb)). cbv zeta in G.
  destruct (list_eq_dec Bool.bool_dec a b) as [|_]; [contradiction|].
  assert (E : sq (IZR (pamZ o a) - IZR (pamZ o b)) = IZR ((pamZ o a - pamZ o b) * (pamZ o a - pamZ o b))) by (rewrite mult_IZR, minus_IZR; reflexivity).
  rewrite E. set (d := ((pamZ o a - pamZ o b) * (pamZ o a - pamZ o b))%Z) in *.
  apply orb_true_iff in G. destruct G as [G|G].
  - apply Z.ltb_lt in G. split; [apply IZR_le; lia|]. intro K. apply eq_IZR in K. lia.
  - apply andb_true_iff in G. destruct G as [G1 G2]. apply Z.eqb_eq in G1. apply Nat.eqb_eq in G2. rewrite G1. split; [lra|auto].
Qed.
Lemma pam_gap o : supported o -> exists a b p p', length a = pam_bits o /\ length b = pam_bits o /\ pam o a = Ok p /\ pam o b = Ok p' /\ a <> b /\ sq (p - p') = 4.
Proof.
  intros [->|[->|[->| ->]]].
  - exists [false], [true]. do 2 eexists. do 4 (split; [reflexivity|]). split; [discriminate|]. unfold sq. cbn. lra.
  - exists [false; false], [true; false]. do 2 eexists. do 4 (split; [reflexivity|]). split; [discriminate|]. unfold sq. cbn. lra.
  - exists [false; false; true], [true; false; true]. do 2 eexists. do 4 (split; [reflexivity|]). split; [discriminate|]. unfold sq. cbn. lra.
  - exists [false; false; true; true], [true; false; true; true]. do 2 eexists. do 4 (split; [reflexivity|]). split; [discriminate|]. unfold sq. cbn. lra.
Qed.
Lemma sq_zero x : sq (x - x) = 0.
Proof. unfold sq. ring. Qed.
Lemma sq_scaled o q p p' : sq (p / nrm o q - p' / nrm o q) = sq (p - p') / NN o q.
Proof. rewrite <- nrm_sq. unfold sq. field. pose proof (nrm_pos o q). lra. Qed.
Lemma builtin_gray m o q : builtin m o q ->
  (forall b b' s s', labels m b s -> labels m b' s' -> b <> b' ->
    4 / NN o q <= dist2 s s' /\ (dist2 s s' = 4 / NN o q -> hamming b b' = 1%nat)) /\
  exists b b' s s', labels m b s /\ labels m b' s' /\ b <> b' /\ dist2 s s' = 4 / NN o q.
Proof.
  intro B. pose proof (bi_supported _ _ _ B) as S. pose proof (NN_pos o q) as PN. destruct q.
  - split.
    + intros b b' s s' L L' NE.
      destruct (labels_builtin m o true b s B L) as [p1 [p2 [P1 [P2 [L1 [L2 [E ->]]]]]]].
      destruct (labels_builtin m o true b' s' B L') as [p1' [p2' [P1' [P2' [L1' [L2' [E' ->]]]]]]].
      rewrite dist2_sq. cbn [fst snd]. rewrite !sq_scaled. rewrite <- E, <- E'. rewrite hamming_interleave by congruence.
      assert (K : sq (p1 - p1') / NN o true + sq (p2 - p2') / NN o true = (sq (p1 - p1') + sq (p2 - p2')) / NN o true) by (field; lra). rewrite K.
      assert (M : forall x y, x <= y <-> x / NN o true <= y / NN o true).
      { intros x y. unfold Rdiv. pose proof (Rinv_0_lt_compat _ PN). split; intro H0; [apply Rmult_le_compat_r; lra|apply Rmult_le_reg_r in H0; lra]. }
      assert (MI : forall x y, x / NN o true = y / NN o true -> x = y) by (intros x y Hxy; apply Rle_antisym; apply (proj2 (M _ _)); lra).
      destruct (list_eq_dec Bool.bool_dec (evens b) (evens b')) as [Ee|Ne], (list_eq_dec Bool.bool_dec (odds b) (odds b')) as [Eo|No].
      * exfalso. apply NE. rewrite <- E, <- E'. congruence.
      * destruct (pam_gray o _ _ _ _ S L2 L2' P2 P2' No) as [G1 G2]. rewrite Ee in P1. rewrite P1 in P1'. injection P1' as <-. rewrite sq_zero in *.
        split; [apply (proj1 (M _ _)); lra|]. intro H. apply MI in H. rewrite Ee, hamming_refl. apply G2. lra.
      * destruct (pam_gray o _ _ _ _ S L1 L1' P1 P1' Ne) as [G1 G2]. rewrite Eo in P2. rewrite P2 in P2'. injection P2' as <-. rewrite sq_zero in *.
        split; [apply (proj1 (M _ _)); lra|]. intro H. apply MI in H. rewrite Eo, hamming_refl. rewrite G2; [reflexivity|lra].
      * destruct (pam_gray o _ _ _ _ S L2 L2' P2 P2' No) as [G1 _]. destruct (pam_gray o _ _ _ _ S L1 L1' P1 P1' Ne) as [G2 _].
        split; [apply (proj1 (M _ _)); lra|]. intro H. apply MI in H. lra.
    + destruct (pam_gap o S) as [a [b [p [p' [La [Lb [Pa [Pb [NE G]]]]]]]]].
      exists (interleave a a), (interleave b a). do 2 eexists. split; [apply builtin_labels_qam; eassumption|]. split; [apply builtin_labels_qam; eassumption|].
      split; [intro K; apply NE; apply (f_equal evens) in K; rewrite !evens_interleave in K by congruence; exact K|].
      rewrite dist2_sq. cbn [fst snd]. rewrite !sq_scaled, G, sq_zero. field. lra.
  - split.
    + intros b b' s s' L L' NE.
      destruct (labels_builtin m o false b s B L) as [p [P [Lb ->]]]. destruct (labels_builtin m o false b' s' B L') as [p' [P' [Lb' ->]]].
      rewrite dist2_sq. cbn [fst snd]. rewrite sq_scaled, sq_zero, Rplus_0_r. destruct (pam_gray o _ _ _ _ S Lb Lb' P P' NE) as [G1 G2].
      pose proof (Rinv_0_lt_compat _ PN) as PI. unfold Rdiv. split; [apply Rmult_le_compat_r; lra|]. intro H. apply G2.
      apply Rmult_eq_reg_r in H; [exact H|apply Rgt_not_eq; exact PI].
    + destruct (pam_gap o S) as [a [b [p [p' [La [Lb [Pa [Pb [NE G]]]]]]]]].
      exists a, b. do 2 eexists. split; [apply builtin_labels_real; eassumption|]. split; [apply builtin_labels_real; eassumption|].
      split; [exact NE|]. rewrite dist2_sq. cbn [fst snd]. rewrite sq_scaled, sq_zero, G. ring.
Qed.

(** *** 8-PSK *)
Definition h : R := 1 / sqrt 2.
Lemma h_facts : h * h = 1 / 2 /\ 0 < h < 1.
Proof.
  pose proof (sqrt_sqrt 2 ltac:(lra)) as E. assert (P : 0 < sqrt 2) by (apply sqrt_lt_R0; lra). unfold h. split.
  - transitivity (1 / (sqrt 2 * sqrt 2)); [field; lra|]. rewrite E. reflexivity.
  - split; [apply Rdiv_lt_0_compat; lra|]. assert (1 < sqrt 2) by (rewrite <- sqrt_1 at 1; apply sqrt_lt_1; lra).
    apply Rmult_lt_reg_r with (sqrt 2); [exact P|]. unfold Rdiv. rewrite Rmult_assoc, Rinv_l; lra.
Qed.
Lemma psk8_points : psk8_map = [(1, 0); (h, h); (- h, h); (0, 1); (h, - h); (0, -1); (-1, 0); (- h, - h)].
Proof.
  unfold psk8_map, psk8_phases. cbn [map].
  replace (0 * PI) with 0 by ring. replace (1 / 4 * PI) with (PI / 4) by field. replace (3 / 4 * PI) with (3 * (PI / 4)) by field.
  replace (1 / 2 * PI) with (PI / 2) by field. replace (- (1 / 4) * PI) with (- (PI / 4)) by field. replace (- (1 / 2) * PI) with (- (PI / 2)) by field.
  replace (1 * PI) with PI by ring. replace (- (3 / 4) * PI) with (- (3 * (PI / 4))) by field.
  rewrite !cos_neg, !sin_neg, cos_0, sin_0, cos_PI4, sin_PI4, cos_3PI4, sin_3PI4, cos_PI2, sin_PI2, cos_PI, sin_PI. unfold h.
  replace (-1 / sqrt 2) with (- (1 / sqrt 2)) by (field; apply Rgt_not_eq, sqrt_lt_R0; lra). reflexivity.
Qed.
Lemma psk8_gray m b b' s s' : mapping m = Some psk8_map -> bps m = 3%nat -> labels m b s -> labels m b' s' -> b <> b' ->
  2 - 2 * h <= dist2 s s' /\ (dist2 s s' = 2 - 2 * h -> hamming b b' = 1%nat).
Proof.
  intros E Eb [L S] [L' S'] NE. unfold symbol in S, S'. rewrite E, psk8_points in S, S'. rewrite Eb in L, L'.
  destruct h_facts as [H1 H2].
  destruct b as [|x [|y [|z [|]]]]; try discriminate. destruct b' as [|x' [|y' [|z' [|]]]]; try discriminate.
  destruct x, y, z; cbn in S; injection S as <-; destruct x', y', z'; cbn in S'; injection S' as <-;
    try (exfalso; apply NE; reflexivity); rewrite dist2_sq; unfold sq; cbn [fst snd];
    (split; [lra|]); intro K; first [reflexivity|exfalso; lra].
Qed.
