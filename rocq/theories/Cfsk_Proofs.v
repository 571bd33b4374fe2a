From Coq Require Import List Reals Bool Arith Lia Lra ZArith.
From Coquelicot Require Import Complex.
From Verif Require Import Base BaseLemmas Cplx Cplx_Proofs Amp_Proofs Beam_Proofs Sc_Proofs Cfsk_Model Cfsk_Spec.
Import ListNotations.
Local Open Scope nat_scope.

(** ** Bits *)
Lemma offset_lt : forall b, offset b < 2 ^ length b.
Proof. intro b. induction b as [|x b IH]; [cbn; lia|]. cbn [offset length Nat.pow]. unfold b2n. destruct x; lia. Qed.
Lemma digits_mod : forall w v k, w <= k -> digits w (v mod 2 ^ k) = digits w v.
Proof.
  intros w v k H. induction w as [|w IH]; [reflexivity|]. cbn [digits]. rewrite IH by lia. f_equal.
  replace k with (w + (k - w)) by lia. rewrite Nat.pow_add_r. rewrite Nat.mod_mul_r by (apply Nat.pow_nonzero; lia).
  rewrite Nat.mul_comm, Nat.div_add by (apply Nat.pow_nonzero; lia). rewrite (Nat.div_small (v mod 2 ^ w)) by (apply Nat.mod_upper_bound, Nat.pow_nonzero; lia). cbn [Nat.add].
  destruct (k - w) as [|q] eqn:Q; [lia|]. cbn [Nat.pow]. rewrite Nat.mod_mul_r by (try apply Nat.pow_nonzero; lia).
  rewrite Nat.odd_add_mul_2. rewrite Nat.add_0_r || idtac. assert (M := Nat.mod_upper_bound (v / 2 ^ w) 2 ltac:(lia)).
  rewrite (Nat.div_mod (v / 2 ^ w) 2) at 2 by lia. rewrite Nat.add_comm, Nat.odd_add_mul_2. reflexivity.
Qed.
Lemma digits_offset : forall b, digits (length b) (offset b) = b.
Proof.
  intro b. induction b as [|x b IH]; [reflexivity|]. cbn [length digits offset]. assert (L := offset_lt b). assert (P : 2 ^ length b <> 0) by (apply Nat.pow_nonzero; lia). f_equal.
  - rewrite Nat.mul_comm, Nat.div_add_l by exact P. rewrite Nat.div_small by exact L. destruct x; reflexivity.
  - assert (Q : (2 ^ length b * b2n x + offset b) mod 2 ^ length b = offset b) by (rewrite Nat.add_comm, (Nat.mul_comm (2 ^ length b)), Nat.mod_add by exact P; apply Nat.mod_small; exact L).
    rewrite <- (digits_mod (length b) _ (length b)) by lia. rewrite Q. exact IH.
Qed.
Lemma length_digits : forall w v, length (digits w v) = w.
Proof. intros w v. induction w as [|w IH]; [reflexivity|]. cbn. f_equal. exact IH. Qed.
Lemma offset_digits : forall w v, v < 2 ^ w -> offset (digits w v) = v.
Proof.
  intro w. induction w as [|w IH]; intros v H; [cbn in *; lia|]. cbn [digits offset]. rewrite length_digits. assert (P : 2 ^ w <> 0) by (apply Nat.pow_nonzero; lia). cbn [Nat.pow] in H.
  rewrite <- (digits_mod w v w) by lia. rewrite IH by (apply Nat.mod_upper_bound; exact P). assert (D := Nat.div_mod v (2 ^ w) P). assert (v / 2 ^ w < 2) by (apply Nat.div_lt_upper_bound; lia).
  destruct (v / 2 ^ w) as [|[|q]]; [cbn [Nat.odd Nat.even negb b2n]; lia|cbn [Nat.odd Nat.even negb b2n]; lia|lia].
Qed.
Lemma unmap_map : forall c bits symbols, map_bits c bits = Ok symbols -> unmap c symbols = Ok bits /\ Forall (fun s => s < order c) symbols /\ length bits = length symbols * bits_per_symbol c.
Proof.
  intros c bits symbols. unfold map_bits. set (n := bits_per_symbol c). destruct (Nat.eqb_spec n 0) as [Z|Z]; [discriminate|]. destruct (Nat.eqb_spec (length bits mod n) 0) as [M|M]; [|discriminate].
  intro E. assert (Hs : symbols = map offset (blocks_of (length bits / n) n bits)) by congruence. assert (L : length bits = length bits / n * n) by (rewrite (Nat.div_mod (length bits) n) at 1 by lia; lia).
  assert (F := blocks_of_all_len (length bits / n) n bits ltac:(lia)).
  assert (O : Forall (fun s => s < order c) symbols).
  { rewrite Hs. apply Forall_forall. intros s I. apply in_map_iff in I. destruct I as [b [<- I]]. rewrite Forall_forall in F. specialize (F _ I). unfold order. fold n. rewrite <- F. apply offset_lt. }
  split; [|split; [exact O|rewrite Hs, map_length, length_blocks_of; exact L]]. unfold unmap.
  assert (K : mapM (unmap_symbol c) symbols = Ok (blocks_of (length bits / n) n bits)).
  { rewrite Hs. clear Hs E O. rewrite Forall_forall in F. induction (blocks_of (length bits / n) n bits) as [|b bs IH]; [reflexivity|].
    cbn [map mapM]. unfold unmap_symbol at 1. assert (B := F b (or_introl eq_refl)). assert (LT := offset_lt b). destruct (Nat.ltb_spec (offset b) (order c)) as [K|K]; [|unfold order in K; fold n in K; rewrite B in LT; lia].
    cbn [bind]. rewrite IH by (intros x Hx; apply F; right; exact Hx).
    cbn [bind]. fold n. rewrite <- B. rewrite digits_offset. reflexivity. }
  rewrite K. cbn [bind]. rewrite concat_blocks_of. rewrite <- L, firstn_all. reflexivity.
Qed.
Lemma map_unmap : forall c symbols, 0 < bits_per_symbol c -> Forall (fun s => s < order c) symbols -> exists bits, unmap c symbols = Ok bits /\ map_bits c bits = Ok symbols.
Proof.
  intros c symbols H F. set (n := bits_per_symbol c) in *. exists (concat (map (digits n) symbols)). split.
  - unfold unmap. rewrite (mapM_total (unmap_symbol c) (digits n)); [reflexivity|]. intros s I. rewrite Forall_forall in F. specialize (F _ I). unfold unmap_symbol. destruct (Nat.ltb_spec s (order c)); [reflexivity|lia].
  - assert (G : Forall (fun b => length b = n) (map (digits n) symbols)) by (apply Forall_forall; intros b I; apply in_map_iff in I; destruct I as [s [<- _]]; apply length_digits).
    assert (L : length (concat (map (digits n) symbols)) = length symbols * n).
    { clear F. induction symbols as [|s r IH]; [reflexivity|]. cbn [map concat] in *. inversion G as [|x xs G1 G2]. rewrite app_length, length_digits, IH by exact G2. cbn [length]. lia. }
    unfold map_bits. fold n. destruct (Nat.eqb_spec n 0); [lia|]. rewrite L, Nat.mod_mul, Nat.div_mul by lia. cbn [Nat.eqb]. f_equal.
    assert (B := blocks_of_concat n (map (digits n) symbols) G). rewrite map_length in B. rewrite B, map_map. rewrite <- (map_id symbols) at 2. apply map_ext_in. intros s I. rewrite Forall_forall in F. apply offset_digits. exact (F s I).
Qed.

(** ** Modulation *)
Lemma length_chirp : forall c i, length (chirp c i) = samples_in_chirp c.
Proof. intros c i. unfold chirp. apply length_tab. Qed.
Lemma length_chirps : forall c l, length (concat (map (chirp c) l)) = samples_in_chirp c * length l.
Proof. intros c l. induction l as [|i l IH]; [cbn; lia|]. cbn [map concat length]. rewrite app_length, length_chirp, IH. lia. Qed.
Lemma pilot_chirps : forall c, pilot_signal c = concat (map (chirp c) (map (fun i => i mod order c) (seq 0 (pilots c)))).
Proof. intro c. unfold pilot_signal. rewrite map_map. reflexivity. Qed.
Lemma length_pilots : forall c, length (pilot_signal c) = samples_in_chirp c * pilots c.
Proof. intro c. rewrite pilot_chirps, length_chirps, map_length, seq_length. reflexivity. Qed.
Lemma store_append : forall a v m, store (length a) v (map Some a ++ List.repeat None (length v + m)) = Ok (map Some (a ++ v) ++ List.repeat None m).
Proof.
  intros a v m. unfold store. rewrite app_length, map_length, repeat_length. destruct (Nat.leb_spec (length a + length v) (length a + (length v + m))); [|lia]. f_equal.
  rewrite firstn_app, map_length, Nat.sub_diag. cbn [firstn]. rewrite app_nil_r. rewrite firstn_all2 by (rewrite map_length; lia). rewrite map_app, <- !app_assoc. f_equal. f_equal.
  rewrite skipn_app, map_length. rewrite skipn_all2 by (rewrite map_length; lia). cbn [app]. replace (length a + length v - length a) with (length v) by lia. rewrite repeat_app, skipn_app, repeat_length, Nat.sub_diag.
  rewrite skipn_all2 by (rewrite repeat_length; lia). reflexivity.
Qed.
Lemma store_all_ok : forall c symbols a m, Forall (fun s => s < order c) symbols ->
  store_all c (length a) symbols (map Some a ++ List.repeat None (samples_in_chirp c * length symbols + m)) = Ok (map Some (a ++ concat (map (chirp c) symbols)) ++ List.repeat None m).
Proof.
  intros c symbols. induction symbols as [|s r IH]; intros a m F; cbn [store_all map concat length].
  - rewrite app_nil_r, Nat.mul_0_r. reflexivity.
  - inversion F as [|x xs F1 F2]. destruct (Nat.ltb_spec s (order c)); [|lia].
    replace (samples_in_chirp c * S (length r) + m) with (length (chirp c s) + (samples_in_chirp c * length r + m)) by (rewrite length_chirp; lia). rewrite store_append. cbn [bind].
    replace (length a + samples_in_chirp c) with (length (a ++ chirp c s)) by (rewrite app_length, length_chirp; reflexivity). rewrite IH by exact F2. rewrite <- app_assoc. reflexivity.
Qed.
Lemma modulate_ok : forall c symbols, fills c symbols -> modulate c symbols = Ok (map Some (pilot_signal c ++ concat (map (chirp c) symbols)) ++ List.repeat None (guard c)).
Proof.
  intros c symbols [L F]. unfold modulate. assert (S := store_append [] (pilot_signal c) (samples_in_chirp c * length symbols + guard c)). cbn [length map app] in S.
  replace (samples_per_frame c) with (length (pilot_signal c) + (samples_in_chirp c * length symbols + guard c)) by (unfold samples_per_frame; rewrite length_pilots, L; lia).
  rewrite S. cbn [bind]. apply store_all_ok. exact F.
Qed.

(** ** Chirps have constant magnitude and start at phase zero *)
Lemma at0_chirp : forall c i k, k < samples_in_chirp c -> at0 (chirp c i) k = cis (2 * PI * cycles c i k).
Proof. intros c i k H. unfold chirp. rewrite at0_tab. destruct (Nat.ltb_spec k (samples_in_chirp c)); [reflexivity|lia]. Qed.
Lemma chirp_unit : forall c i k, k < samples_in_chirp c -> Cmod (at0 (chirp c i) k) = 1%R.
Proof. intros c i k H. rewrite at0_chirp by exact H. apply Cmod_cis. Qed.
Lemma chirp_start : forall c i, 0 < samples_in_chirp c -> at0 (chirp c i) 0 = RtoC 1.
Proof. intros c i H. rewrite at0_chirp by exact H. cbn [cycles]. rewrite Rmult_0_r. apply cis_0. Qed.

(** ** Correlations *)
Lemma unit_re : forall z : C, Cmod z = 1%R -> z <> RtoC 1 -> (fst z < 1)%R.
Proof.
  intros [x y] H N. cbn [fst]. assert (Q : (x * x + y * y = 1)%R). { assert (S : (Cmod (x, y) ^ 2 = 1)%R) by (rewrite H; ring). unfold Cmod in S. cbn [fst snd] in S. rewrite pow2_sqrt in S by nra. nra. }
  destruct (Rlt_le_dec x 1) as [L|L]; [exact L|]. exfalso. apply N. unfold RtoC. assert (x = 1%R) by nra. subst. f_equal. nra.
Qed.
Lemma csum_ones : forall z n, (forall k, k < n -> z k = RtoC 1) -> csum z n = RtoC (INR n).
Proof. intros z n H. rewrite (csum_ext z (fun _ => RtoC 1)) by exact H. rewrite csum_const. ring. Qed.
Lemma strict_sum : forall z n, (forall k, k < n -> Cmod (z k) = 1%R) -> z 0 = RtoC 1 -> (exists k, k < n /\ z k <> RtoC 1) -> (Cmod (csum z n) < INR n)%R.
Proof.
  intros z n. induction n as [|n IH]; intros U Z [k [K N]]; [lia|]. cbn [csum]. rewrite S_INR.
  assert (Un := U n ltac:(lia)). assert (Dec : (exists j, j < n /\ z j <> RtoC 1) \/ (forall j, j < n -> z j = RtoC 1)).
  { clear. induction n as [|n IH]; [right; intros; lia|]. destruct IH as [[j [J H]]|H]; [left; exists j; split; [lia|exact H]|].
    destruct (Ceq_dec (z n) (RtoC 1)) as [E|E]; [right|left; exists n; split; [lia|exact E]]. intros j J. destruct (Nat.eq_dec j n) as [->|D]; [exact E|apply H; lia]. }
  destruct Dec as [D|D].
  - assert (I := IH (fun k Hk => U k ltac:(lia)) Z D). assert (T := Cmod_triangle (csum z n) (z n)). lra.
  - assert (k = n) by (destruct (Nat.eq_dec k n); [assumption|exfalso; apply N, D; lia]). subst k. rewrite csum_ones by exact D.
    assert (Hn : n <> 0) by (intro; subst; congruence). assert (A : (0 < INR n)%R) by (apply lt_0_INR; lia). assert (Re := unit_re (z n) Un N). destruct (z n) as [x y] eqn:E. cbn [fst] in Re.
    assert (Q : (x * x + y * y = 1)%R). { assert (S : (Cmod (x, y) ^ 2 = 1)%R) by (rewrite Un; ring). unfold Cmod in S. cbn [fst snd] in S. rewrite pow2_sqrt in S by nra. nra. }
    unfold Cmod, Cplus, RtoC. cbn [fst snd]. rewrite Rplus_0_l. apply Rsqr_incrst_0; [|apply sqrt_pos|lra]. rewrite Rsqr_sqrt by (apply Rplus_le_le_0_compat; apply pow2_ge_0). unfold Rsqr. nra.
Qed.
Lemma overlap_self : forall c i, overlap c i i = INR (samples_in_chirp c).
Proof.
  intros c i. unfold overlap. rewrite csum_ones.
  - rewrite Cmod_R. apply Rabs_pos_eq. apply pos_INR.
  - intros k Hk. rewrite at0_chirp by exact Hk. rewrite conj_cis, <- cis_add, Rplus_opp_r. apply cis_0.
Qed.
Lemma unit_product : forall z w, Cmod w = 1%R -> (z * conj w = RtoC 1)%C -> z = w.
Proof.
  intros z w U H. assert (W : (w * conj w = RtoC 1)%C).
  { destruct w as [x y]. unfold Cmod in U. cbn [fst snd] in U. assert (S : (sqrt (x ^ 2 + y ^ 2) ^ 2 = 1)%R) by (rewrite U; ring). rewrite pow2_sqrt in S by nra. unfold conj, Cmult, RtoC. cbn [fst snd]. f_equal; nra. }
  transitivity (z * (w * conj w))%C; [rewrite W; ring|]. transitivity ((z * conj w) * w)%C; [ring|]. rewrite H. ring.
Qed.
Lemma overlap_other : forall c i j, 0 < samples_in_chirp c -> chirp c i <> chirp c j -> (overlap c i j < INR (samples_in_chirp c))%R.
Proof.
  intros c i j H N. unfold overlap. apply strict_sum.
  - intros k Hk. rewrite Cmod_mult, chirp_unit by exact Hk. rewrite at0_chirp, conj_cis, Cmod_cis by exact Hk. ring.
  - rewrite !chirp_start by exact H. rewrite conj_R. ring.
  - assert (D : forall n, (exists k, k < n /\ at0 (chirp c i) k <> at0 (chirp c j) k) \/ (forall k, k < n -> at0 (chirp c i) k = at0 (chirp c j) k)).
    { intro n. induction n as [|n IH]; [right; intros; lia|]. destruct IH as [[k [K Q]]|Q]; [left; exists k; split; [lia|exact Q]|].
      destruct (Ceq_dec (at0 (chirp c i) n) (at0 (chirp c j) n)) as [E|E]; [right|left; exists n; split; [lia|exact E]]. intros k K. destruct (Nat.eq_dec k n) as [->|]; [exact E|apply Q; lia]. }
    destruct (D (samples_in_chirp c)) as [[k [K Q]]|Q].
    + exists k. split; [exact K|]. intro E. apply Q. apply unit_product; [apply chirp_unit; exact K|exact E].
    + exfalso. apply N. apply list_eq_at0; [rewrite !length_chirp; reflexivity|]. intros k Hk. rewrite length_chirp in Hk. apply Q. exact Hk.
Qed.

(** ** Detection *)
Lemma argmax_spec f n : (argmax f n <= n)%nat /\ (forall i, (i <= n)%nat -> f i <= f (argmax f n))%R /\ (forall i, (i < argmax f n)%nat -> f i < f (argmax f n))%R.
Proof.
  induction n as [|n IH]; [cbn [argmax]; split; [lia|split; [intros i Hi; replace i with 0 by lia; lra|intros; lia]]|].
  destruct IH as [L [M F]]. cbn [argmax]. destruct (Rlt_dec (f (argmax f n)) (f (S n))) as [H|H].
  - split; [lia|]. split; intros i Hi.
    + destruct (Nat.eq_dec i (S n)) as [->|]; [lra|]. specialize (M i ltac:(lia)). lra.
    + specialize (M i ltac:(lia)). lra.
  - split; [lia|]. split; [intros i Hi|exact F]. destruct (Nat.eq_dec i (S n)) as [->|]; [lra|]. apply M. lia.
Qed.
Lemma argmax_strict : forall f n i, i <= n -> (forall j, j <= n -> j <> i -> (f j < f i)%R) -> argmax f n = i.
Proof.
  intros f n i Hi H. destruct (argmax_spec f n) as [L [M _]]. destruct (Nat.eq_dec (argmax f n) i) as [E|E]; [exact E|]. specialize (H _ L E). specialize (M i Hi). lra.
Qed.
Lemma rsum_bound : forall z n, (Cmod (csum z n) <= rsum (fun k => Cmod (z k)) n)%R.
Proof.
  intros z n. induction n as [|n IH]; cbn [csum rsum]; [rewrite Cmod_0; lra|]. assert (T := Cmod_triangle (csum z n) (z n)). lra.
Qed.
Lemma rsum_ext : forall f g n, (forall k, k < n -> f k = g k) -> rsum f n = rsum g n.
Proof. intros f g n. induction n as [|n IH]; intro H; [reflexivity|]. cbn [rsum]. rewrite IH, H by (auto; lia). reflexivity. Qed.
Lemma order_pos : forall c, 0 < order c.
Proof. intro c. unfold order. assert (2 ^ bits_per_symbol c <> 0) by (apply Nat.pow_nonzero; lia). lia. Qed.
Lemma detect_ok : forall c h w x i, i < order c -> (forall k, k < samples_in_chirp c -> at0 x k = (h * at0 (chirp c i) k + w k)%C) ->
  (forall j, j < order c -> j <> i -> (2 * rsum (fun k => Cmod (w k)) (samples_in_chirp c) < Cmod h * (INR (samples_in_chirp c) - overlap c i j))%R) -> detect c x = i.
Proof.
  intros c h w x i Hi Hx Hw. unfold detect. assert (P := order_pos c). apply argmax_strict; [lia|]. intros j Hj Nj. specialize (Hw j ltac:(lia) Nj).
  assert (D : forall j, csum (fun k => at0 x k * conj (at0 (chirp c j) k))%C (samples_in_chirp c) =
    (h * csum (fun k => at0 (chirp c i) k * conj (at0 (chirp c j) k)) (samples_in_chirp c) + csum (fun k => w k * conj (at0 (chirp c j) k)) (samples_in_chirp c))%C).
  { intro j'. rewrite <- csum_scal, <- csum_plus. apply csum_ext. intros k Hk. rewrite Hx by exact Hk. ring. }
  assert (B : forall j, (Cmod (csum (fun k => w k * conj (at0 (chirp c j) k))%C (samples_in_chirp c)) <= rsum (fun k => Cmod (w k)) (samples_in_chirp c))%R).
  { intro j'. eapply Rle_trans; [apply rsum_bound|]. apply Req_le. apply rsum_ext. intros k Hk. rewrite Cmod_mult, at0_chirp, conj_cis, Cmod_cis by exact Hk. ring. }
  unfold metric. rewrite !D. assert (Bi := B i). assert (Bj := B j). set (wi := csum (fun k => w k * conj (at0 (chirp c i) k))%C (samples_in_chirp c)) in *. set (wj := csum (fun k => w k * conj (at0 (chirp c j) k))%C (samples_in_chirp c)) in *.
  assert (Oi := overlap_self c i). unfold overlap in Oi, Hw. set (pi := csum (fun k => at0 (chirp c i) k * conj (at0 (chirp c i) k))%C (samples_in_chirp c)) in *. set (pj := csum (fun k => at0 (chirp c i) k * conj (at0 (chirp c j) k))%C (samples_in_chirp c)) in *.
  assert (T1 := Cmod_triangle (h * pj)%C wj). assert (T2 : (Cmod (h * pi)%C <= Cmod (h * pi + wi)%C + Cmod wi)%R).
  { assert (T := Cmod_triangle (h * pi + wi)%C (- wi)%C). rewrite Cmod_opp in T. replace (h * pi + wi + - wi)%C with (h * pi)%C in T by ring. exact T. }
  rewrite Cmod_mult in T1, T2. rewrite Oi in T2. lra.
Qed.
Lemma at0_slice : forall (l : list C) a n k, k < n -> at0 (slice a (a + n) l) k = at0 l (a + k).
Proof.
  intros l a n k H. unfold slice. replace (a + n - a) with n by lia. unfold at0.
  destruct (nth_error l (a + k)) as [v|] eqn:E.
  - transitivity v; [|symmetry; apply nth_error_nth; exact E]. apply nth_error_nth. rewrite nth_error_firstn', nth_error_skipn' by exact H. exact E.
  - apply nth_error_None in E. rewrite !nth_overflow; [reflexivity|exact E|]. rewrite firstn_length, skipn_length. lia.
Qed.
Lemma at0_firstn : forall (l : list C) n k, k < n -> at0 (firstn n l) k = at0 l k.
Proof. intros l n k H. assert (E := at0_slice l 0 n k H). unfold slice in E. cbn [skipn Nat.add] in E. rewrite Nat.sub_0_r in E. exact E. Qed.
Lemma at0_skipn : forall (l : list C) n k, at0 (skipn n l) k = at0 l (n + k).
Proof.
  intros l n k. unfold at0. destruct (nth_error l (n + k)) as [v|] eqn:E.
  - transitivity v; [|symmetry; apply nth_error_nth; exact E]. apply nth_error_nth. rewrite nth_error_skipn'. exact E.
  - apply nth_error_None in E. rewrite !nth_overflow; [reflexivity|exact E|]. rewrite skipn_length. lia.
Qed.
Lemma at0_chirps : forall c l j i k, k < samples_in_chirp c -> nth_error l j = Some i -> at0 (concat (map (chirp c) l)) (samples_in_chirp c * j + k) = at0 (chirp c i) k.
Proof.
  intros c l. induction l as [|x l IH]; intros j i k Hk E; [destruct j; discriminate|]. cbn [map concat]. unfold at0 at 1. destruct j as [|j].
  - injection E as ->. rewrite Nat.mul_0_r. cbn [Nat.add]. rewrite app_nth1 by (rewrite length_chirp; exact Hk). reflexivity.
  - rewrite app_nth2 by (rewrite length_chirp; lia). rewrite length_chirp. replace (samples_in_chirp c * S j + k - samples_in_chirp c) with (samples_in_chirp c * j + k) by lia. apply IH; [exact Hk|exact E].
Qed.
Lemma demodulate_ok : forall c symbols h w frame signal, fills c symbols -> 0 < samples_in_chirp c ->
  modulate c symbols = Ok frame -> arrives h w frame signal ->
  (forall k i j, nth_error symbols k = Some i -> j < order c -> j <> i -> (2 * noise_in_chirp c w k < Cmod h * (INR (samples_in_chirp c) - overlap c i j))%R) ->
  demodulate c signal = Ok symbols.
Proof.
  intros c symbols h w frame signal FI Hn Em [La Va] Hw. rewrite (modulate_ok c symbols FI) in Em. destruct FI as [L F].
  assert (Hf : frame = map Some (pilot_signal c ++ concat (map (chirp c) symbols)) ++ List.repeat None (guard c)) by congruence. clear Em.
  assert (Lf : length frame = samples_in_chirp c * (pilots c + chirps c) + guard c) by (rewrite Hf, app_length, map_length, app_length, length_pilots, length_chirps, repeat_length, L; lia).
  set (n := samples_in_chirp c) in *. unfold demodulate. fold n. destruct (Nat.eqb_spec n 0); [lia|]. set (x := firstn (n * chirps c) (skipn (n * pilots c) signal)).
  assert (Lx : length x = chirps c * n) by (unfold x; rewrite firstn_length, skipn_length, La, Lf; lia). rewrite Lx, Nat.mod_mul, Nat.div_mul by lia. cbn [Nat.eqb]. f_equal.
  unfold blocks_of. rewrite map_map. apply (nth_ext _ _ 0 0); [rewrite map_length, seq_length; auto|]. intros j Hj. rewrite map_length, seq_length in Hj.
  rewrite (nth_indep _ _ ((fun i => detect c (slice (i * n) ((1 + i) * n) x)) 0)) by (rewrite map_length, seq_length; exact Hj).
  rewrite (map_nth (fun i => detect c (slice (i * n) ((1 + i) * n) x))), seq_nth by exact Hj. cbn [Nat.add].
  assert (E : nth_error symbols j = Some (nth j symbols 0)) by (apply nth_error_nth'; lia). set (i := nth j symbols 0) in *.
  apply (detect_ok c h (fun k => w (n * (pilots c + j) + k))).
  - rewrite Forall_forall in F. apply F. apply (nth_error_In _ j). exact E.
  - fold n. intros k Hk. replace (S j * n) with (j * n + n) by lia. rewrite at0_slice by exact Hk. unfold x. assert (B : j * n + k < n * chirps c) by nia. rewrite at0_firstn, at0_skipn by exact B.
    set (t := n * pilots c + (j * n + k)). assert (Q : nth_error frame t = Some (Some (at0 (chirp c i) k))).
    { rewrite Hf. rewrite nth_error_app1 by (rewrite map_length, app_length, length_pilots, length_chirps, L; fold n; unfold t; lia). rewrite nth_error_map'.
      rewrite nth_error_app2 by (rewrite length_pilots; fold n; unfold t; lia). rewrite length_pilots. fold n. replace (t - n * pilots c) with (n * j + k) by (unfold t; lia).
      rewrite (nth_error_nth' _ (RtoC 0)) by (rewrite length_chirps, L; fold n; lia). cbn [option_map]. f_equal. f_equal. exact (at0_chirps c symbols j i k Hk E). }
    specialize (Va t _ Q). unfold at0 at 1. rewrite (nth_error_nth _ _ _ Va). replace (n * (pilots c + j) + k) with t by (unfold t; lia). reflexivity.
  - intros m Hm Nm. exact (Hw j i m E Hm Nm).
Qed.

(** ** Which chirps are distinct *)
Section Distinct.
Local Open Scope R_scope.
Lemma cis_turn : forall d, 0 < d < 1 -> cis (2 * PI * d) <> RtoC 1.
Proof.
  intros d H E. unfold cis, RtoC in E. assert (C := f_equal fst E). cbn [fst] in C. assert (P := PI_RGT_0).
  assert (S := cos_2a_sin (PI * d)). replace (2 * (PI * d)) with (2 * PI * d) in S by ring. rewrite C in S. assert (Z : sin (PI * d) * sin (PI * d) = 0) by lra.
  assert (0 < sin (PI * d)) by (apply sin_gt_0; nra). nra.
Qed.
Lemma cis_equal : forall a b, cis (2 * PI * a) = cis (2 * PI * b) -> cis (2 * PI * (a - b)) = RtoC 1.
Proof. intros a b E. replace (2 * PI * (a - b)) with (2 * PI * a + - (2 * PI * b)) by ring. rewrite cis_add, E, <- cis_add, Rplus_opp_r. apply cis_0. Qed.
Lemma ceil_two : forall x, 1 < x -> (2 <= Z.to_nat (- Int_part (- x)))%nat.
Proof. intros x H. assert (B := base_Int_part (- x)). destruct B as [B _]. assert (IZR (Int_part (- x)) < IZR (-1)) by lra. apply lt_IZR in H0. lia. Qed.
Lemma no_wrap_distinct : forall c, bandwidth c > 0 -> duration c > 0 -> (0 < oversampling c)%nat -> step c > 0 ->
  (INR (order c) - 1) * step c + bandwidth c / (duration c * sampling_rate c) <= bandwidth c -> distinct_chirps c.
Proof.
  intros c B T O Sp W i j Hi Hj E. assert (Os : 1 <= INR (oversampling c)) by (apply (le_INR 1); lia). assert (Fs : sampling_rate c >= bandwidth c) by (unfold sampling_rate; nra).
  assert (Q : 0 < bandwidth c / (duration c * sampling_rate c)) by (apply Rdiv_lt_0_compat; [lra|apply Rmult_lt_0_compat; lra]).
  assert (M : forall i, (i < order c)%nat -> INR i <= INR (order c) - 1). { intros k Hk. assert (K := le_INR (S k) (order c) ltac:(lia)). rewrite S_INR in K. lra. }
  assert (V : forall i, (i < order c)%nat -> cycles c i 1 = (- (1 / 2) * bandwidth c + INR i * step c + bandwidth c / (duration c * sampling_rate c) / 2) / sampling_rate c).
  { intros k Hk. cbn [cycles]. assert (Mk := M k Hk). assert (INR k * step c <= (INR (order c) - 1) * step c) by (apply Rmult_le_compat_r; lra).
    assert (X : INR 1 / sampling_rate c * (bandwidth c / duration c) = bandwidth c / (duration c * sampling_rate c)) by (cbn [INR]; field; lra).
    unfold frequency. rewrite X. cbn [INR]. destruct (Rlt_dec (1 / 2 * bandwidth c) (0 / sampling_rate c * (bandwidth c / duration c) + (- (1 / 2) * bandwidth c + INR k * step c))) as [A|A].
    { exfalso. replace (0 / sampling_rate c * (bandwidth c / duration c)) with 0 in A by (unfold Rdiv; ring). lra. }
    destruct (Rlt_dec (1 / 2 * bandwidth c) (bandwidth c / (duration c * sampling_rate c) + (- (1 / 2) * bandwidth c + INR k * step c))) as [A'|A']; [lra|]. field. lra. }
  assert (N : (i <> j -> 2 <= samples_in_chirp c)%nat).
  { intro D. apply ceil_two. assert (2 <= order c)%nat by lia. assert (K := le_INR 2 (order c) H). cbn [INR] in K. assert (bandwidth c / (duration c * sampling_rate c) < bandwidth c) by nra.
    assert (0 < duration c * sampling_rate c) by (apply Rmult_lt_0_compat; lra). replace (duration c * bandwidth c * INR (oversampling c)) with (duration c * sampling_rate c) by (unfold sampling_rate; ring).
    apply Rmult_lt_reg_l with (r := bandwidth c / (duration c * sampling_rate c)); [exact Q|]. replace (bandwidth c / (duration c * sampling_rate c) * (duration c * sampling_rate c)) with (bandwidth c) by (field; lra). lra. }
  assert (G : forall i j, (i < j)%nat -> (j < order c)%nat -> (2 <= samples_in_chirp c)%nat -> chirp c j <> chirp c i).
  { clear i j Hi Hj E N. intros i j L Hj N E. apply (f_equal (fun l => at0 l 1)) in E. rewrite !at0_chirp in E by lia. apply cis_equal in E. revert E. apply cis_turn. rewrite (V i), (V j) by lia.
    assert (K := lt_INR i j L). assert (Mj := M j Hj). assert (I0 := pos_INR i).
    match goal with |- 0 < ?a < 1 => replace a with ((INR j - INR i) * step c / sampling_rate c) by (field; lra) end. split.
    - apply Rdiv_lt_0_compat; [apply Rmult_lt_0_compat; lra|lra].
    - apply Rmult_lt_reg_r with (r := sampling_rate c); [lra|]. replace ((INR j - INR i) * step c / sampling_rate c * sampling_rate c) with ((INR j - INR i) * step c) by (field; lra).
      assert ((INR j - INR i) * step c <= (INR (order c) - 1) * step c) by (apply Rmult_le_compat_r; lra). lra. }
  destruct (Nat.lt_trichotomy i j) as [L|[L|L]]; [|exact L|].
  - exfalso. exact (G i j L Hj (N ltac:(lia)) (eq_sym E)).
  - exfalso. exact (G j i L Hi (N ltac:(lia)) E).
Qed.
Lemma default_distinct : forall c, bandwidth c > 0 -> duration c > 0 -> (0 < oversampling c)%nat -> difference c = 0 ->
  INR (order c) <= duration c * bandwidth c * INR (oversampling c) -> distinct_chirps c.
Proof.
  intros c B T O D H. assert (P : 0 < INR (order c)) by (apply lt_0_INR, order_pos). assert (Os : 1 <= INR (oversampling c)) by (apply (le_INR 1); lia).
  assert (S : step c = bandwidth c / INR (order c)) by (unfold step; rewrite D; destruct (Req_EM_T 0 0); [reflexivity|lra]).
  apply no_wrap_distinct; auto; rewrite S.
  - apply Rdiv_lt_0_compat; lra.
  - assert (X : 0 < duration c * sampling_rate c) by (unfold sampling_rate; apply Rmult_lt_0_compat; [lra|apply Rmult_lt_0_compat; lra]).
    assert (Y : bandwidth c / (duration c * sampling_rate c) <= bandwidth c / INR (order c)).
    { unfold Rdiv. apply Rmult_le_compat_l; [lra|]. apply Rinv_le_contravar; [exact P|]. unfold sampling_rate. lra. }
    replace ((INR (order c) - 1) * (bandwidth c / INR (order c))) with (bandwidth c - bandwidth c / INR (order c)) by (field; lra). lra.
Qed.
End Distinct.
