(** Proofs about symbol mapping: round trips, energies and lists of symbols. *)
From Coq Require Import Reals List Arith Bool Lia Lra ZArith.
From Verif Require Import Base BaseLemmas Qam_Model QamPam_Proofs Qam_Spec Qam_Proofs QamMap_Proofs.
Import ListNotations.
Open Scope R_scope.

(** *** Mapping sequences of bits *)
Lemma get_symbols_blocks ord mp soft cx m bits : make_mapper ord mp soft cx = Ok m -> (0 < bps m)%nat ->
  (length bits mod bps m = 0)%nat -> exists xs, get_symbols m bits = Ok xs /\ length xs = (length bits / bps m)%nat /\
    Forall2 (labels m) (blocks_of (length bits / bps m) (bps m) bits) xs /\ concat (blocks_of (length bits / bps m) (bps m) bits) = bits.
Proof.
  intros Hm P D. unfold get_symbols. rewrite (proj2 (Nat.eqb_neq _ _)) by lia.
  pose proof (Nat.div_mod (length bits) (bps m) ltac:(lia)) as E. rewrite D, Nat.add_0_r in E.
  set (n := (length bits / bps m)%nat) in *. rewrite (proj2 (Nat.eqb_eq (n * bps m) (length bits))) by lia. cbn [negb].
  assert (AL : Forall (fun b => length b = bps m) (blocks_of n (bps m) bits)) by (apply blocks_of_all_len; lia).
  assert (K : exists xs, mapM (symbol m) (blocks_of n (bps m) bits) = Ok xs /\ Forall2 (labels m) (blocks_of n (bps m) bits) xs).
  { induction AL as [|b bs Hb _ IH]; [exists []; split; [reflexivity|constructor]|].
    destruct IH as [xs [Ex Fx]]. destruct (symbol_total _ _ _ _ _ b Hm Hb) as [s Es]. exists (s :: xs). cbn [mapM]. rewrite Es, Ex.
    split; [reflexivity|]. constructor; [split; assumption|exact Fx]. }
  destruct K as [xs [Ex Fx]]. exists xs. split; [exact Ex|]. pose proof (Forall2_len _ _ _ Fx) as L. rewrite length_blocks_of in L.
  split; [symmetry; exact L|]. split; [exact Fx|]. rewrite concat_blocks_of. apply firstn_all2. lia.
Qed.

Lemma dist2_eq0 s s' : dist2 s s' = 0 -> s = s'.
Proof.
  rewrite dist2_sq. unfold sq. intro H. destruct s as [a b], s' as [a' b']. cbn [fst snd] in H.
  destruct (Rplus_sqr_eq_0 (a - a') (b - b') H). f_equal; lra.
Qed.
Lemma dist2_par y s s' : dist2 s s' <= 2 * dist2 y s + 2 * dist2 y s'.
Proof.
  rewrite !dist2_sq. unfold sq.
  set (a := fst y). set (b := snd y). set (p := fst s). set (q := snd s). set (p' := fst s'). set (q' := snd s').
  assert (0 <= (2 * a - p - p') * (2 * a - p - p')) by apply Rle_0_sqr.
  assert (0 <= (2 * b - q - q') * (2 * b - q - q')) by apply Rle_0_sqr. nra.
Qed.
Lemma only_nearest_noise m e y b s : (forall b b' s s', labels m b s -> labels m b' s' -> b <> b' -> 4 * e <= dist2 s s') ->
  labels m b s -> dist2 y s < e -> only_nearest m y b.
Proof.
  intros D L Hy. exists s. split; [exact L|]. intros b' s' L' NE.
  assert (NE' : b <> b') by congruence. pose proof (D b b' s s' L L' NE'). pose proof (dist2_par y s s'). lra.
Qed.
Lemma only_nearest_self m b s : distinct m -> labels m b s -> only_nearest m s b.
Proof.
  intros D L. exists s. split; [exact L|]. intros b' s' L' NE. rewrite dist2_refl.
  destruct (Rle_lt_or_eq_dec 0 (dist2 s s') (dist2_nonneg s s')) as [K|K]; [exact K|exfalso].
  symmetry in K. apply dist2_eq0 in K. subst s'. apply NE. symmetry. apply (D b b' s L L').
Qed.
Lemma psk8_gap m : mapping m = Some psk8_map -> bps m = 3%nat ->
  exists b b' s s', labels m b s /\ labels m b' s' /\ b <> b' /\ dist2 s s' = 2 - 2 * h.
Proof.
  intros E Eb. exists [false; false; false], [false; false; true], (1, 0), (h, h). unfold labels, symbol. rewrite E, Eb, psk8_points.
  do 2 (split; [split; reflexivity|]). split; [discriminate|]. rewrite dist2_sq. unfold sq. cbn [fst snd]. destruct h_facts. lra.
Qed.
Lemma gray_any ord soft cx m : make_mapper ord None soft cx = Ok m -> exists d, 0 < d /\
  (forall b b' s s', labels m b s -> labels m b' s' -> b <> b' -> d <= dist2 s s' /\ (dist2 s s' = d -> hamming b b' = 1%nat)) /\
  exists b b' s s', labels m b s /\ labels m b' s' /\ b <> b' /\ dist2 s s' = d.
Proof.
  intro H. destruct (builtin_config ord soft cx m H) as [_ [_ [_ [[_ [_ [Em Eb]]]|[o [q B]]]]]].
  - exists (2 - 2 * h). split; [destruct h_facts; lra|]. split; [|apply psk8_gap; assumption].
    intros b b' s s' L L' NE. apply (psk8_gray m b b' s s' Em Eb L L' NE).
  - exists (4 / NN o q). split; [apply Rdiv_lt_0_compat; [lra|apply NN_pos]|]. apply builtin_gray, B.
Qed.
Lemma distinct_any ord soft cx m : make_mapper ord None soft cx = Ok m -> distinct m.
Proof.
  intros H b b' s L L'. destruct (gray_any _ _ _ _ H) as [d [P [G _]]].
  destruct (list_eq_dec Bool.bool_dec b b') as [|NE]; [assumption|]. destruct (G b b' s s L L' NE) as [K _]. rewrite dist2_refl in K. lra.
Qed.

(** *** Energies *)
Lemma abs2_nonneg z : 0 <= abs2 z.
Proof. unfold abs2. pose proof (Rle_0_sqr (fst z)). pose proof (Rle_0_sqr (snd z)). unfold Rsqr in *. lra. Qed.
Lemma sum_cons x l : sum_list (x :: l) = x + sum_list l.
Proof. reflexivity. Qed.
Lemma energy_scaled c l : c <> 0 -> energy (map (fun z : cplx => (fst z / c, snd z / c)) l) = energy l / (c * c).
Proof.
  intro Hc. unfold energy. rewrite map_length.
  assert (E : sum_list (map abs2 (map (fun z : cplx => (fst z / c, snd z / c)) l)) = sum_list (map abs2 l) / (c * c)).
  { induction l as [|z l IH]; [change (0 = 0 / (c * c)); field; exact Hc|]. cbn [map]. rewrite !sum_cons, IH. unfold abs2. cbn [fst snd]. field. exact Hc. }
  rewrite E. unfold Rdiv. ring.
Qed.
Lemma energy_normalized l : 0 < energy l -> energy (normalized l) = 1.
Proof.
  intro P. assert (PS : 0 < sqrt (energy l)) by (apply sqrt_lt_R0; exact P). unfold normalized. rewrite energy_scaled by lra.
  rewrite sqrt_sqrt by lra. field. lra.
Qed.
Lemma energy_pos l z : In z l -> z <> (0, 0) -> 0 < energy l.
Proof.
  intros Hz NZ. unfold energy. apply Rdiv_lt_0_compat.
  - assert (G : forall l', 0 <= sum_list (map abs2 l')) by (induction l' as [|x l' IH]; [apply Rle_refl|]; cbn [map]; rewrite sum_cons; pose proof (abs2_nonneg x); lra).
    induction l as [|x l IH]; [destruct Hz|]. cbn [map]. rewrite sum_cons. pose proof (abs2_nonneg x). pose proof (G l). destruct Hz as [->|Hz].
    + assert (abs2 z <> 0); [|lra]. intro K. apply NZ. destruct z as [a b]. unfold abs2 in K. cbn [fst snd] in K. destruct (Rplus_sqr_eq_0 a b K). congruence.
    + specialize (IH Hz). lra.
  - apply lt_0_INR. destruct l; [destruct Hz|cbn; lia].
Qed.
Lemma energy_psk8 : energy psk8_map = 1.
Proof.
  rewrite psk8_points. destruct h_facts as [H _]. unfold energy. cbn [map length]. rewrite !sum_cons. change (sum_list []) with 0. unfold abs2. cbn [fst snd].
  replace (INR 8) with 8 by (cbn; lra). lra.
Qed.
Lemma make_custom ord l soft cx m : make_mapper ord (Some l) soft cx = Ok m ->
  mapping m = Some (normalized l) /\ order m = ord /\ length l = ord /\ soft_output m = soft /\ bps m = Nat.log2 ord.
Proof.
  unfold make_mapper. rewrite !andb_false_r. destruct (_ || _); [discriminate|]. destruct (Nat.eqb_spec (length l) ord) as [E|]; [|discriminate].
  intro H. injection H as <-. repeat split. exact E.
Qed.
Lemma distinct_custom ord l soft cx m : make_mapper ord (Some l) soft cx = Ok m -> 0 < energy l -> (distinct m <-> NoDup l).
Proof.
  intros Hm P. assert (PS : 0 < sqrt (energy l)) by (apply sqrt_lt_R0; exact P).
  destruct (make_mapper_cases _ _ _ _ _ Hm) as [_ [[l' T]|[E _]]].
  - assert (El : l' = normalized l).
    { destruct T as [E _]. destruct (make_custom _ _ _ _ _ Hm) as [E' _]. rewrite E in E'. injection E' as ->. reflexivity. }
    assert (ND : NoDup l <-> NoDup l').
    { subst l'. unfold normalized. split; intro N.
      - apply FinFun.Injective_map_NoDup; [|exact N]. intros [a b] [a' b'] K. cbn [fst snd] in K. injection K as K1 K2. f_equal; (apply Rmult_eq_reg_r with (/ sqrt (energy l)); [assumption|apply Rgt_not_eq, Rinv_0_lt_compat; exact PS]).
      - apply NoDup_map_inv in N. exact N. }
    rewrite ND. split; intro D.
    + apply NoDup_nth_error. intros i j Hi Eij.
      destruct (nth_error l' i) as [s|] eqn:Es; [|apply nth_error_None in Es; lia].
      assert (Hj : (j < length l')%nat) by (apply nth_error_Some; congruence).
      destruct T as [E LT]. pose proof (D _ _ s (table_labels m l' i s (conj E LT) Es) (table_labels m l' j s (conj E LT) (eq_sym Eij))) as K.
      apply (f_equal value) in K. rewrite !value_bits_of in K by lia. exact K.
    + intros b b' s L L'. pose proof L as [Lb Sb]. pose proof L' as [Lb' Sb'].
      destruct (table_symbol m l' b T Lb) as [s1 [E1 N1]]. destruct (table_symbol m l' b' T Lb') as [s2 [E2 N2]].
      rewrite Sb in E1. injection E1 as <-. rewrite Sb' in E2. injection E2 as <-.
      pose proof (proj1 (NoDup_nth_error l') D (value b) (value b')) as K.
      assert (KV : value b = value b').
      { apply K; [apply nth_error_Some; congruence|]. rewrite N1, N2. reflexivity. }
      rewrite <- (bits_of_value b), <- (bits_of_value b'), Lb, Lb', KV. reflexivity.
  - exfalso. destruct (make_custom _ _ _ _ _ Hm) as [E' _]. rewrite E in E'. discriminate.
Qed.

(** *** Lists of all symbols *)
Lemma flat_map_len n k : forall b, length (flat_map (bits_of n) (seq b k)) = (k * n)%nat.
Proof. induction k as [|k IH]; intro b; [reflexivity|]. cbn [seq flat_map]. rewrite app_length, bits_of_len, IH. reflexivity. Qed.
Lemma blocks_flat_map n k : forall b, blocks_of k n (flat_map (bits_of n) (seq b k)) = map (bits_of n) (seq b k).
Proof.
  induction k as [|k IH]; intro b; [reflexivity|]. cbn [seq flat_map map]. rewrite blocks_of_S.
  rewrite firstn_app, bits_of_len, Nat.sub_diag, firstn_O, app_nil_r. rewrite (firstn_all2 (bits_of n b)) by (rewrite bits_of_len; lia).
  rewrite skipn_app, bits_of_len, Nat.sub_diag. rewrite (skipn_all2 (bits_of n b)) by (rewrite bits_of_len; lia). cbn [app skipn]. rewrite IH. reflexivity.
Qed.
Lemma builtin_bps_pos m o q : builtin m o q -> (0 < bps m)%nat.
Proof. intro B. rewrite (bi_bps _ _ _ B). destruct (bi_supported _ _ _ B) as [->|[->|[->| ->]]]; destruct q; cbn; lia. Qed.
Lemma get_mapping_builtin m o q : builtin m o q -> get_mapping m = mapM (symbol m) (map (bits_of (bps m)) (seq 0 (2 ^ bps m))).
Proof.
  intro B. unfold get_mapping. rewrite (bi_mapping _ _ _ B). unfold get_symbols. pose proof (builtin_bps_pos _ _ _ B) as P.
  rewrite (proj2 (Nat.eqb_neq _ _)) by lia. rewrite flat_map_len, (bi_order _ _ _ B), Nat.div_mul, Nat.eqb_refl by lia. cbn [negb].
  rewrite blocks_flat_map. reflexivity.
Qed.
Lemma get_mapping_labels ord mp soft cx m : make_mapper ord mp soft cx = Ok m -> exists l, get_mapping m = Ok l /\ length l = (2 ^ bps m)%nat /\
  forall b s, labels m b s <-> length b = bps m /\ nth_error l (value b) = Some s.
Proof.
  intro Hm. destruct (make_mapper_cases _ _ _ _ _ Hm) as [_ [[l T]|[_ [o [q B]]]]].
  - exists l. pose proof T as [E L]. split; [unfold get_mapping; rewrite E; reflexivity|]. split; [exact L|]. intros b s. split.
    + intros [Lb Sb]. split; [exact Lb|]. destruct (table_symbol m l b T Lb) as [s1 [E1 N1]]. rewrite Sb in E1. injection E1 as <-. exact N1.
    + intros [Lb Nb]. split; [exact Lb|]. unfold symbol. rewrite E, Nb. reflexivity.
  - rewrite (get_mapping_builtin m o q B).
    assert (K : forall bl, Forall (fun b => length b = bps m) bl -> exists l, mapM (symbol m) bl = Ok l /\ Forall2 (fun b s => symbol m b = Ok s) bl l).
    { induction 1 as [|b bl Hb _ IH]; [exists []; split; [reflexivity|constructor]|]. destruct IH as [l [El Fl]].
      destruct (symbol_total _ _ _ _ _ b Hm Hb) as [s Es]. exists (s :: l). cbn [mapM]. rewrite Es, El. split; [reflexivity|constructor; assumption]. }
    destruct (K (map (bits_of (bps m)) (seq 0 (2 ^ bps m)))) as [l [El Fl]].
    { apply Forall_forall. intros b Hb. apply in_map_iff in Hb. destruct Hb as [k [<- _]]. apply bits_of_len. }
    exists l. split; [exact El|]. pose proof (Forall2_len _ _ _ Fl) as L. rewrite map_length, seq_length in L. split; [symmetry; exact L|].
    assert (N : forall b, length b = bps m -> exists s, symbol m b = Ok s /\ nth_error l (value b) = Some s).
    { intros b Hb. pose proof (value_lt b) as V. rewrite Hb in V.
      destruct (nth_error l (value b)) as [s|] eqn:Es; [|apply nth_error_None in Es; lia]. exists s. split; [|reflexivity].
      assert (Eb : nth_error (map (bits_of (bps m)) (seq 0 (2 ^ bps m))) (value b) = Some b).
      { rewrite nth_error_map', nth_error_seq, (proj2 (Nat.ltb_lt _ _) V). cbn [option_map]. f_equal. rewrite <- Hb. apply bits_of_value. }
      clear -Fl Es Eb. revert Es Eb. generalize (value b). intro k. revert k. induction Fl as [|b0 s0 ? ? H0 _ IH]; intros [|k] Es Eb; try discriminate.
      - cbn in Es, Eb. injection Es as <-. injection Eb as <-. exact H0.
      - apply (IH k); assumption. }
    intros b s. split.
    + intros [Lb Sb]. split; [exact Lb|]. destruct (N b Lb) as [s1 [E1 N1]]. rewrite Sb in E1. injection E1 as <-. exact N1.
    + intros [Lb Nb]. split; [exact Lb|]. destruct (N b Lb) as [s1 [E1 N1]]. rewrite Nb in N1. injection N1 as <-. exact E1.
Qed.

(** Energies of the built-in constellations, computed with integers *)
Definition symZ (o : nat) (q : bool) (b : list bool) : Z :=
  (if q then pamZ o (evens b) * pamZ o (evens b) + pamZ o (odds b) * pamZ o (odds b) else pamZ o b * pamZ o b)%Z.
Definition nZ (o : nat) : Z := match o with 2%nat => 1 | 4%nat => 5 | 8%nat => 21 | _ => 85 end%Z.
Definition NNZ (o : nat) (q : bool) : Z := ((if q then 2 else 1) * nZ o)%Z.
Definition width (o : nat) (q : bool) : nat := (if q then 2 * pam_bits o else pam_bits o)%nat.
Definition sumZ (l : list Z) : Z := fold_right Z.add 0%Z l.
Lemma energy_checked o q : supported o ->
  sumZ (map (symZ o q) (map (bits_of (width o q)) (seq 0 (2 ^ width o q)))) = (NNZ o q * Z.of_nat (2 ^ width o q))%Z.
Proof. intros [->|[->|[->| ->]]]; destruct q; vm_compute; reflexivity. Qed.
Lemma NN_Z o q : NN o q = IZR (NNZ o q).
Proof.
  unfold NN, NNZ, n_o, nZ. rewrite mult_IZR. f_equal; [destruct q; reflexivity|].
  do 17 (destruct o as [|o]; [reflexivity|]). reflexivity.
Qed.
Lemma symbol_abs2 m o q b s : builtin m o q -> symbol m b = Ok s -> abs2 s = IZR (symZ o q b) / NN o q.
Proof.
  intros B E. pose proof (bi_supported _ _ _ B) as S. pose proof (NN_pos o q) as P. pose proof (nrm_pos o q) as Q. rewrite (bi_symbol _ _ _ B) in E.
  rewrite <- nrm_sq. unfold symZ. destruct q.
  - unfold qam_symbol in E. rewrite !pam_Z in E by exact S. cbn [bind] in E. injection E as <-. unfold abs2. cbn [fst snd].
    rewrite plus_IZR, !mult_IZR. field. lra.
  - unfold real_symbol in E. rewrite !pam_Z in E by exact S. cbn [bind] in E. injection E as <-. unfold abs2. cbn [fst snd].
    rewrite !mult_IZR. field. lra.
Qed.
Lemma energy_builtin m o q l : builtin m o q -> get_mapping m = Ok l -> energy l = 1.
Proof.
  intros B E. rewrite (get_mapping_builtin m o q B) in E. pose proof (NN_pos o q) as P.
  assert (W : bps m = width o q) by apply (bi_bps _ _ _ B). rewrite W in E.
  pose proof (energy_checked o q (bi_supported _ _ _ B)) as C.
  assert (N : length l = (2 ^ width o q)%nat) by (apply mapM_length in E; rewrite E, map_length, seq_length; reflexivity).
  assert (K : forall bl l', mapM (symbol m) bl = Ok l' -> sum_list (map abs2 l') = IZR (sumZ (map (symZ o q) bl)) / NN o q).
  { induction bl as [|b bl IH]; intros l' E'.
    - injection E' as <-. change (0 = 0 / NN o q). field. lra.
    - cbn [mapM] in E'. apply bind_ok in E'. destruct E' as [s [Es E']]. apply bind_ok in E'. destruct E' as [l2 [E2 E']]. injection E' as <-.
      cbn [map]. rewrite sum_cons, (IH l2 E2), (symbol_abs2 m o q b s B Es). change (sumZ (symZ o q b :: map (symZ o q) bl)) with (symZ o q b + sumZ (map (symZ o q) bl))%Z.
      rewrite plus_IZR. field. lra. }
  unfold energy. rewrite (K _ _ E), C, N, mult_IZR, <- NN_Z, <- INR_IZR_INZ. field. split; [lra|]. apply not_0_INR. apply Nat.pow_nonzero. lia.
Qed.
