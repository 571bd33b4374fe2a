From Coq Require Import List Reals Bool Arith ZArith Lia Lra Psatz.
From Coquelicot Require Import Complex.
From Verif Require Import Base BaseLemmas Cplx Cplx_Proofs Radar_Model Fmcw_Model Fmcw_Spec.
From Verif Require Mf_Proofs Sc_Proofs Blk_Proofs.
Import ListNotations.
Local Open Scope nat_scope.

(** ** Rounding *)
Lemma truncate_nat : forall n, truncate (INR n) = Z.of_nat n.
Proof.
  intro n. unfold truncate. destruct (Rle_dec 0 (INR n)) as [_|H]; [|exfalso; apply H; apply pos_INR]. rewrite INR_IZR_INZ.
  destruct (base_Int_part (IZR (Z.of_nat n))) as [A B]. apply le_IZR in A. assert (C : (IZR (Z.of_nat n) < IZR (Int_part (IZR (Z.of_nat n)) + 1))%R) by (rewrite plus_IZR; lra). apply lt_IZR in C. lia.
Qed.
Lemma truncate_between : forall x n, (INR n <= x < INR n + 1)%R -> truncate x = Z.of_nat n.
Proof.
  intros x n H. assert (P := pos_INR n). unfold truncate. destruct (Rle_dec 0 x) as [_|?]; [|lra]. destruct (base_Int_part x) as [A B]. rewrite INR_IZR_INZ in H.
  assert (C : (IZR (Z.of_nat n) < IZR (Int_part x + 1))%R) by (rewrite plus_IZR; lra). assert (D : (IZR (Int_part x) < IZR (Z.of_nat n + 1))%R) by (rewrite plus_IZR; lra). apply lt_IZR in C. apply lt_IZR in D. lia.
Qed.

(** ** Lists *)
Lemma at0_out : forall (p : list C) i, length p <= i -> at0 p i = RtoC 0.
Proof. intros p i H. unfold at0. apply nth_overflow. exact H. Qed.
Lemma length_chirp : forall w b o, length (chirp w b o) = chirp_samples w b o.
Proof. intros w b o. unfold chirp. rewrite map_length, seq_length. reflexivity. Qed.
Lemma at0_chirp : forall w b o n, n < chirp_samples w b o -> at0 (chirp w b o) n = cis (chirp_phase w b (INR n / rate_of b o)).
Proof. intros w b o n H. unfold chirp. rewrite Sc_Proofs.at0_map_seq. destruct (Nat.ltb_spec n (chirp_samples w b o)); [reflexivity|lia]. Qed.
Lemma energy_app : forall a b, energy_of (a ++ b) = (energy_of a + energy_of b)%R.
Proof. intros a b. unfold energy_of. rewrite map_app. induction (map (fun z => Cmod z ^ 2)%R a) as [|x r IH]; cbn [app fold_right]; [lra|]. rewrite IH. lra. Qed.
Lemma energy_zeros : forall n, energy_of (repeat (RtoC 0) n) = 0%R.
Proof. intro n. unfold energy_of. induction n as [|n IH]; cbn [repeat map fold_right]; [reflexivity|]. rewrite IH, Cmod_0. ring. Qed.
Lemma energy_cis : forall f l, energy_of (map (fun n : nat => cis (f n)) l) = INR (length l).
Proof. intros f l. unfold energy_of. induction l as [|n l IH]; [reflexivity|]. cbn [map fold_right]. rewrite IH, Mf_Proofs.cmod_cis. cbn [length]. rewrite S_INR. ring. Qed.
Lemma energy_repeat : forall p n, energy_of (concat (repeat p n)) = (INR n * energy_of p)%R.
Proof. intros p n. induction n as [|n IH]; cbn [repeat concat]; [unfold energy_of; cbn; ring|]. rewrite energy_app, IH, S_INR. ring. Qed.
Lemma padded_at : forall n x l, at0 (padded n x) l = if l <? n then at0 x l else RtoC 0.
Proof. intros n x l. apply (Mf_Proofs.at0_fit n x l). Qed.
Lemma length_padded : forall n x, length (padded n x) = n.
Proof. intros n x. apply (Mf_Proofs.length_fit n x). Qed.
Lemma nth_skipn_add : forall (A : Type) (l : list A) k i d, nth i (skipn k l) d = nth (k + i) l d.
Proof. intros A l. induction l as [|x r IH]; intros k i d; [rewrite skipn_nil; destruct i, (k + 0); destruct k; reflexivity|]. destruct k as [|k]; [reflexivity|]. cbn [skipn Nat.add nth]. apply IH. Qed.
Lemma row_at : forall p i x n, n < p -> at0 (row p i x) n = at0 x (i * p + n).
Proof. intros p i x n H. unfold row, at0. rewrite Mf_Proofs.nth_firstn_lt by exact H. apply nth_skipn_add. Qed.
Lemma length_row : forall p i x, (i + 1) * p <= length x -> length (row p i x) = p.
Proof. intros p i x H. unfold row. rewrite firstn_length, skipn_length. lia. Qed.
Lemma frame_row : forall p chirps i x n, i < chirps -> n < p -> at0 (row p i (padded (chirps * p) x)) n = at0 x (i * p + n).
Proof.
  intros p chirps i x n Hi Hn. rewrite row_at by exact Hn. rewrite padded_at. destruct (Nat.ltb_spec (i * p + n) (chirps * p)) as [L|L]; [reflexivity|]. exfalso. nia.
Qed.
Lemma length_frame_row : forall p chirps i x, i < chirps -> length (row p i (padded (chirps * p) x)) = p.
Proof. intros p chirps i x Hi. apply length_row. rewrite length_padded. nia. Qed.
Lemma mixed_ok : forall c r, length c <= length r -> mixed c r = Ok (map (fun n => conj (at0 r n) * at0 c n)%C (seq 0 (length c))).
Proof.
  intros c r H. unfold mixed. assert (L : length (firstn (length c) r) = length c) by (rewrite firstn_length; lia). rewrite L, Nat.eqb_refl. f_equal. apply map_ext_in. intros n Hn. apply in_seq in Hn. unfold at0 at 1. rewrite Mf_Proofs.nth_firstn_lt by lia. reflexivity.
Qed.
Lemma mapM_const : forall (A B : Type) (f : A -> result B) (g : A -> B) l, (forall x, In x l -> f x = Ok (g x)) -> mapM f l = Ok (map g l).
Proof. intros A B f g l. induction l as [|x r IH]; intro H; [reflexivity|]. cbn [mapM map]. rewrite (H x) by (left; reflexivity). cbn [bind]. rewrite IH by (intros y Y; apply H; right; exact Y). reflexivity. Qed.

(** ** Doppler rows *)
Lemma cis_period : forall a k, cis (a + 2 * PI * INR k)%R = cis a.
Proof. intros a k. rewrite cis_add, cis_2PI_nat. ring. Qed.
Lemma cis_turns : forall a z, cis (a + 2 * PI * IZR z)%R = cis a.
Proof.
  intros a z. destruct (Z_le_gt_dec 0 z) as [H|H].
  - rewrite <- (Z2Nat.id z H), <- INR_IZR_INZ. apply cis_period.
  - rewrite <- (cis_period (a + 2 * PI * IZR z)%R (Z.to_nat (- z))). f_equal. rewrite INR_IZR_INZ, Z2Nat.id by lia. rewrite opp_IZR. ring.
Qed.
(** Rows advancing by a phase of [z] turns in all [n] rows only appear in one row of the transform *)
Lemma rows_transform : forall n (z : Z) u, 0 < n -> u < n ->
  csum (fun r => cis (- (2 * PI * IZR z * INR r / INR n)) * cis (- turn n u r))%C n = if ((z + Z.of_nat u) mod Z.of_nat n =? 0)%Z then RtoC (INR n) else RtoC 0.
Proof.
  intros n z u Hn Hu. assert (N : INR n <> 0%R) by (apply not_0_INR; lia).
  set (a := Z.to_nat ((- z) mod Z.of_nat n)). assert (A : a < n) by (unfold a; assert (Q := Z.mod_pos_bound (- z) (Z.of_nat n) ltac:(lia)); lia).
  transitivity (csum (fun k => cis (turn n k a) * cis (- turn n k u))%C n).
  - apply csum_ext. intros r _. f_equal; [|rewrite (turn_comm n u r); reflexivity].
    assert (E : Z.of_nat a = (- z - Z.of_nat n * ((- z) / Z.of_nat n))%Z). { unfold a. rewrite Z2Nat.id by (apply Z.mod_pos_bound; lia). rewrite Z.mod_eq by lia. reflexivity. }
    rewrite <- (cis_turns (- (2 * PI * IZR z * INR r / INR n))%R (- (Z.of_nat r * ((- z) / Z.of_nat n)))%Z). f_equal. unfold turn.
    rewrite (INR_IZR_INZ a), E, minus_IZR, opp_IZR, opp_IZR, !mult_IZR, <- !INR_IZR_INZ. field. exact N.
  - rewrite roots_orthogonal by assumption. destruct (Nat.eqb_spec a u) as [E|E]; destruct (Z.eqb_spec ((z + Z.of_nat u) mod Z.of_nat n) 0) as [F|F]; try reflexivity.
    + exfalso. apply F. rewrite <- E. unfold a. rewrite Z2Nat.id by (apply Z.mod_pos_bound; lia). rewrite Zplus_mod_idemp_r. replace (z + - z)%Z with 0%Z by lia. reflexivity.
    + exfalso. apply E. unfold a. apply Nat2Z.inj. rewrite Z2Nat.id by (apply Z.mod_pos_bound; lia). apply Z.mod_divide in F; [|lia]. destruct F as [q F]. replace (- z)%Z with (Z.of_nat u + (- q) * Z.of_nat n)%Z by lia. rewrite Z.mod_add by lia. apply Z.mod_small. lia.
Qed.
Lemma fft2_rows : forall y n (z : Z) u k, 0 < length y -> u < length y ->
  (forall r c, r < length y -> c < n -> at0 (nth r y []) c = (cis (- (2 * PI * IZR z * INR r / INR (length y))) * at0 (nth 0 y []) c)%C) ->
  fft2 y n u k = if ((z + Z.of_nat u) mod Z.of_nat (length y) =? 0)%Z then (RtoC (INR (length y)) * csum (fun c => at0 (nth 0 y []) c * cis (- turn n k c))%C n)%C else RtoC 0.
Proof.
  intros y n z u k Hy Hu H. unfold fft2. set (s := csum (fun c => at0 (nth 0 y []) c * cis (- turn n k c))%C n).
  transitivity (csum (fun r => s * (cis (- (2 * PI * IZR z * INR r / INR (length y))) * cis (- turn (length y) u r)))%C (length y)).
  - apply csum_ext. intros r Hr. rewrite (csum_ext _ (fun c => cis (- (2 * PI * IZR z * INR r / INR (length y))) * (at0 (nth 0 y []) c * cis (- turn n k c)))%C).
    + rewrite csum_scal. fold s. ring.
    + intros c Hc. rewrite (H r c Hr Hc). ring.
  - rewrite csum_scal, rows_transform by assumption. destruct (_ =? 0)%Z; ring.
Qed.
Lemma unshift_lt : forall n u, 0 < n -> unshift n u < n.
Proof. intros n u H. unfold unshift. apply Nat.mod_upper_bound. lia. Qed.
(** The row of the transform showing a phase advance of [z] turns per frame *)
Lemma doppler_row : forall n (z : Z) u, 0 < n -> u < n -> (z <= Z.of_nat (n - n / 2))%Z -> (Z.of_nat (n - n / 2) - z < Z.of_nat n)%Z ->
  ((z + Z.of_nat (unshift n u)) mod Z.of_nat n = 0)%Z -> Z.of_nat u = (Z.of_nat (n - n / 2) - z)%Z.
Proof.
  intros n z u Hn Hu H1 H2 H. unfold unshift in H. rewrite Nat2Z.inj_mod, Zplus_mod_idemp_r in H. apply Z.mod_divide in H; [|lia]. destruct H as [q H].
  assert (D : n / 2 <= n) by (apply Nat.div_le_upper_bound; lia). rewrite Nat2Z.inj_add in H. rewrite Nat2Z.inj_sub in * by exact D.
  assert (Q : q = 1%Z). { destruct (Z_lt_ge_dec q 1) as [L|L]; [exfalso; nia|]. destruct (Z_lt_ge_dec 1 q) as [L'|L']; [exfalso; nia|lia]. } subst q. lia.
Qed.
Lemma doppler_row_conv : forall n (z : Z) u, 0 < n -> Z.of_nat u = (Z.of_nat (n - n / 2) - z)%Z -> ((z + Z.of_nat (unshift n u)) mod Z.of_nat n = 0)%Z.
Proof.
  intros n z u Hn H. unfold unshift. rewrite Nat2Z.inj_mod, Zplus_mod_idemp_r, Nat2Z.inj_add, H. assert (D : n / 2 <= n) by (apply Nat.div_le_upper_bound; lia). rewrite Nat2Z.inj_sub by exact D.
  replace (z + (Z.of_nat n - Z.of_nat (n / 2) - z + Z.of_nat (n / 2)))%Z with (Z.of_nat n) by lia. apply Z_mod_same_full.
Qed.
Lemma doppler_label : forall w z u, 0 < num_chirps w -> (0 < interval w)%R -> u < num_chirps w -> Z.of_nat u = (Z.of_nat (num_chirps w - num_chirps w / 2) - z)%Z ->
  nth_error (relative_doppler_bins w) u = Some (- (IZR z / frame_duration w) / 2 + INR (num_chirps w mod 2) / (4 * frame_duration w))%R.
Proof.
  intros w z u Hn Hp Hu E. unfold relative_doppler_bins. rewrite nth_error_map', nth_error_seq. destruct (Nat.ltb_spec u (num_chirps w)); [|lia]. cbn [option_map Nat.add]. f_equal.
  assert (N : (0 < INR (num_chirps w))%R) by (apply lt_0_INR; exact Hn).
  assert (U : (INR u = INR (num_chirps w - num_chirps w / 2) - IZR z)%R) by (rewrite (INR_IZR_INZ u), E, minus_IZR, <- INR_IZR_INZ; reflexivity).
  assert (M : (2 * INR (num_chirps w - num_chirps w / 2) = INR (num_chirps w) + INR (num_chirps w mod 2))%R).
  { rewrite <- plus_INR. change 2%R with (INR 2). rewrite <- mult_INR. f_equal. assert (Q := Nat.div_mod (num_chirps w) 2 ltac:(lia)). lia. }
  unfold relative_doppler_resolution, max_relative_doppler, frame_duration. rewrite U. assert (K : INR (num_chirps w - num_chirps w / 2) = ((INR (num_chirps w) + INR (num_chirps w mod 2)) / 2)%R) by lra. rewrite K. field. lra.
Qed.

(** ** Estimation *)
Definition beats (w : fmcw) (b : R) (o p : nat) (x : list C) (i : nat) : list C :=
  map (fun n => conj (at0 x (i * p + n)) * at0 (chirp w b o) n)%C (seq 0 (chirp_samples w b o)).
Lemma estimate_ok : forall filter w b o x p, truncate (interval w * rate_of b o) = Z.of_nat p -> 0 < p -> chirp_samples w b o <= p -> 0 < num_bins w b o ->
  estimate filter w b o x = Ok (fun u k => Cmod (fft2 (map filter (map (beats w b o p x) (seq 0 (num_chirps w)))) (num_bins w b o) (unshift (num_chirps w) u) k) ^ 2)%R.
Proof.
  intros filter w b o x p Hp H0 Hc Hn. unfold estimate. rewrite Hp, Nat2Z.id. destruct (Nat.eqb_spec p 0); [lia|].
  rewrite (mapM_const _ _ _ (beats w b o p x)).
  - cbn [bind]. destruct (Nat.eqb_spec (num_bins w b o) 0); [lia|]. reflexivity.
  - intros i Hi. apply in_seq in Hi. rewrite mixed_ok by (rewrite length_chirp, length_frame_row by lia; exact Hc). f_equal. unfold beats. rewrite length_chirp. apply map_ext_in. intros l Hn'. apply in_seq in Hn'.
    rewrite frame_row by lia. reflexivity.
Qed.
Lemma nth_map_seq : forall (A : Type) (f : nat -> A) n i d, i < n -> nth i (map f (seq 0 n)) d = f i.
Proof. intros A f n i d H. rewrite (nth_indep _ d (f 0)) by (rewrite map_length, seq_length; exact H). rewrite map_nth, seq_nth by exact H. reflexivity. Qed.

Lemma Int_part_le : forall x y, (x <= y)%R -> (Int_part x <= Int_part y)%Z.
Proof. intros x y H. destruct (base_Int_part x) as [A B]. destruct (base_Int_part y) as [C D]. assert (L : (IZR (Int_part x) < IZR (Int_part y + 1))%R) by (rewrite plus_IZR; lra). apply lt_IZR in L. lia. Qed.
Lemma truncate_nonneg : forall x, (0 <= x)%R -> (0 <= truncate x)%Z.
Proof. intros x H. unfold truncate. destruct (Rle_dec 0 x); [|lra]. assert (Q := Int_part_le 0 x H). destruct (base_Int_part 0) as [A B]. assert (L : (IZR (-1) < IZR (Int_part 0))%R) by lra. apply lt_IZR in L. lia. Qed.
Lemma truncate_le : forall x y, (0 <= x)%R -> (x <= y)%R -> (truncate x <= truncate y)%Z.
Proof. intros x y H1 H2. unfold truncate. destruct (Rle_dec 0 x); [|lra]. destruct (Rle_dec 0 y); [|lra]. apply Int_part_le. exact H2. Qed.

(** The intervals of a frame *)
Definition interval_samples (w : fmcw) (b : R) (o : nat) : nat := Z.to_nat (truncate (interval w * rate_of b o)).
Lemma chirp_fits : forall w b o, (0 < b)%R -> (0 < chirp_duration w)%R -> (chirp_duration w <= interval w)%R -> chirp_samples w b o <= interval_samples w b o.
Proof.
  intros w b o Hb Ht H. unfold chirp_samples, interval_samples. apply Z2Nat.inj_le; try (apply truncate_nonneg); unfold rate_of; assert (O := pos_INR o); try (apply Rmult_le_pos; [lra|apply Rmult_le_pos; lra]).
  apply truncate_le; [apply Rmult_le_pos; [lra|apply Rmult_le_pos; lra]|]. apply Rmult_le_compat_r; [apply Rmult_le_pos; lra|exact H].
Qed.
Lemma estimate_inv : forall filter w b o x e, (0 < b)%R -> (0 < chirp_duration w)%R -> (chirp_duration w <= interval w)%R -> estimate filter w b o x = Ok e ->
  0 < interval_samples w b o /\ 0 < num_bins w b o /\
  e = (fun u k => Cmod (fft2 (map filter (map (beats w b o (interval_samples w b o) x) (seq 0 (num_chirps w)))) (num_bins w b o) (unshift (num_chirps w) u) k) ^ 2)%R.
Proof.
  intros filter w b o x e Hb Ht H E. assert (F := chirp_fits w b o Hb Ht H). unfold interval_samples in *.
  destruct (Nat.eq_dec (Z.to_nat (truncate (interval w * rate_of b o))) 0) as [Z0|Z0]; [unfold estimate in E; rewrite Z0 in E; discriminate|].
  destruct (Nat.eq_dec (num_bins w b o) 0) as [N0|N0].
  - exfalso. unfold estimate in E. destruct (Nat.eqb_spec (Z.to_nat (truncate (interval w * rate_of b o))) 0); [lia|]. destruct (mapM _ _); [|discriminate]. cbn [bind] in E. rewrite N0 in E. discriminate.
  - split; [lia|split; [lia|]]. assert (O := pos_INR o).
    assert (T : truncate (interval w * rate_of b o) = Z.of_nat (Z.to_nat (truncate (interval w * rate_of b o)))).
    { rewrite Z2Nat.id; [reflexivity|]. apply truncate_nonneg. unfold rate_of. apply Rmult_le_pos; [lra|apply Rmult_le_pos; lra]. }
    assert (E' := estimate_ok filter w b o x _ T ltac:(lia) F ltac:(lia)). congruence.
Qed.
Lemma beats_scaled : forall w b o p x i c, (forall n, n < chirp_samples w b o -> at0 x (i * p + n) = (c * at0 x (0 * p + n))%C) -> beats w b o p x i = map (Cmult (conj c)) (beats w b o p x 0).
Proof.
  intros w b o p x i c H. unfold beats. rewrite map_map. apply map_ext_in. intros n Hn. apply in_seq in Hn. rewrite H by lia. rewrite conj_mult. ring.
Qed.
Lemma beats_same : forall w b o p x i, (forall n, n < chirp_samples w b o -> at0 x (i * p + n) = at0 x (0 * p + n)) -> beats w b o p x i = beats w b o p x 0.
Proof. intros w b o p x i H. unfold beats. apply map_ext_in. intros n Hn. apply in_seq in Hn. rewrite H by lia. reflexivity. Qed.
Lemma nth_rows : forall (filter : list C -> list C) (f : nat -> list C) n r, r < n -> nth r (map filter (map f (seq 0 n))) [] = filter (f r).
Proof. intros filter f n r H. rewrite map_map. apply (nth_map_seq _ (fun i => filter (f i))). exact H. Qed.
Lemma at0_map_mult : forall c l i, at0 (map (Cmult c) l) i = (c * at0 l i)%C.
Proof. intros c l i. unfold at0. rewrite <- (map_nth (Cmult c)). replace (c * RtoC 0)%C with (RtoC 0) by ring. reflexivity. Qed.

(** ** Echoes *)
Lemma csum_window : forall (f : nat -> C) h l n, h <= l -> l <= n -> csum (fun c => if (h <=? c) && (c <? l) then f c else RtoC 0) n = csum (fun i => f (h + i)) (l - h).
Proof.
  intros f h l n H1 H2. replace n with (h + ((l - h) + (n - l))) at 1 by lia. rewrite !csum_app.
  rewrite (csum_ext _ (fun _ => RtoC 0) h).
  2:{ intros i Hi. destruct (Nat.leb_spec h i); [lia|]. reflexivity. }
  rewrite (csum_ext _ (fun i => f (h + i)) (l - h)).
  2:{ intros i Hi. destruct (Nat.leb_spec h (h + i)); [|lia]. destruct (Nat.ltb_spec (h + i) l); [|lia]. reflexivity. }
  rewrite (csum_ext _ (fun _ => RtoC 0) (n - l)).
  2:{ intros i Hi. destruct (Nat.ltb_spec (h + (l - h + i)) l); [lia|]. rewrite andb_false_r. reflexivity. }
  rewrite !csum_0. ring.
Qed.
Lemma csum_cis_bound : forall (f : nat -> R) n, (Cmod (csum (fun i => cis (f i)) n) <= INR n)%R.
Proof. intros f n. induction n as [|n IH]; [cbn [csum INR]; rewrite Cmod_0; lra|]. cbn [csum]. rewrite S_INR. eapply Rle_trans; [apply Cmod_triangle|]. rewrite Mf_Proofs.cmod_cis. lra. Qed.

Lemma pulse_aligned : forall w b o c p, (chirp_duration w * rate_of b o = INR c)%R -> (interval w * rate_of b o = INR p)%R -> c <= p ->
  pulse w b o = Ok (chirp w b o ++ repeat (RtoC 0) (p - c)).
Proof.
  intros w b o c p Hc Hp H. unfold pulse. replace ((interval w - chirp_duration w) * b * INR o)%R with (interval w * rate_of b o - chirp_duration w * rate_of b o)%R by (unfold rate_of; ring).
  rewrite Hc, Hp, <- minus_INR by exact H. rewrite truncate_nat. destruct (Z.ltb_spec (Z.of_nat (p - c)) 0); [lia|]. rewrite Nat2Z.id. reflexivity.
Qed.
Lemma chirp_aligned : forall w b o c, (chirp_duration w * rate_of b o = INR c)%R -> chirp_samples w b o = c.
Proof. intros w b o c H. unfold chirp_samples. rewrite H, truncate_nat. apply Nat2Z.id. Qed.
Lemma interval_aligned : forall w b o p, (interval w * rate_of b o = INR p)%R -> interval_samples w b o = p.
Proof. intros w b o c H. unfold interval_samples. rewrite H, truncate_nat. apply Nat2Z.id. Qed.
Lemma ping_layout : forall w b o c p s, (chirp_duration w * rate_of b o = INR c)%R -> (interval w * rate_of b o = INR p)%R -> c <= p -> ping w b o = Ok s ->
  length s = num_chirps w * p /\ forall r l, r < num_chirps w -> l < p -> at0 s (r * p + l) = at0 (chirp w b o) l.
Proof.
  intros w b o c p s Hc Hp H E. unfold ping in E. rewrite (pulse_aligned w b o c p Hc Hp H) in E. cbn [bind] in E. injection E as <-.
  assert (L : length (chirp w b o ++ repeat (RtoC 0) (p - c)) = p) by (rewrite app_length, length_chirp, repeat_length, (chirp_aligned w b o c Hc); lia).
  split; [rewrite Blk_Proofs.length_concat_repeat, L; reflexivity|]. intros r l Hr Hl. unfold at0. rewrite <- L at 1. rewrite Blk_Proofs.nth_concat_repeat by (rewrite ?L; assumption).
  destruct (Nat.ltb_spec l c) as [A|A].
  - rewrite app_nth1 by (rewrite length_chirp, (chirp_aligned w b o c Hc); exact A). reflexivity.
  - rewrite app_nth2 by (rewrite length_chirp, (chirp_aligned w b o c Hc); exact A). rewrite nth_repeat, nth_overflow by (rewrite length_chirp, (chirp_aligned w b o c Hc); exact A). reflexivity.
Qed.
(** What is received in the first samples of an interval *)
Lemma echo_row : forall w b o c p s g m x r l, (chirp_duration w * rate_of b o = INR c)%R -> (interval w * rate_of b o = INR p)%R -> c + m <= p -> ping w b o = Ok s -> echo s g m x ->
  r < num_chirps w -> l < c -> at0 x (r * p + l) = if m <=? l then (g * at0 (chirp w b o) (l - m))%C else RtoC 0.
Proof.
  intros w b o c p s g m x r l Hc Hp H E He Hr Hl. destruct (ping_layout w b o c p s Hc Hp ltac:(lia) E) as [_ G]. rewrite He. destruct (Nat.leb_spec m l) as [A|A].
  - destruct (Nat.leb_spec m (r * p + l)); [|lia]. replace (r * p + l - m) with (r * p + (l - m)) by lia. rewrite G by lia. reflexivity.
  - destruct (Nat.leb_spec m (r * p + l)) as [B|B]; [|reflexivity]. destruct r as [|r]; [lia|]. replace (S r * p + l - m) with (r * p + (p + l - m)) by (cbn [Nat.mul]; lia). rewrite G by lia.
    rewrite at0_out by (rewrite length_chirp, (chirp_aligned w b o c Hc); lia). ring.
Qed.
Definition tone (w : fmcw) (b : R) (o m : nat) : C := cis (PI * (- b * (INR m / rate_of b o) - b / chirp_duration w * (INR m / rate_of b o) ^ 2)).
Lemma beat_phase : forall w b o m l, (0 < b)%R -> 1 <= o -> (0 < chirp_duration w)%R -> m <= l ->
  (conj (cis (chirp_phase w b (INR (l - m) / rate_of b o))) * cis (chirp_phase w b (INR l / rate_of b o)) = tone w b o m * cis (2 * PI * (b / chirp_duration w) * INR m * INR l / rate_of b o ^ 2))%C.
Proof.
  intros w b o m l Hb Ho Ht H. assert (O : (0 < INR o)%R) by (apply lt_0_INR; lia). unfold tone. rewrite conj_cis, <- !cis_add. f_equal. unfold chirp_phase. rewrite minus_INR by exact H. unfold rate_of. field. lra.
Qed.
(** The sampled beat of an echo is a tone of [k] turns per chirp *)
Lemma beat_samples : forall w b o n p s g m k q x r i, (0 < b)%R -> 1 <= o -> (0 < chirp_duration w)%R ->
  (chirp_duration w * b = INR n)%R -> (interval w * rate_of b o = INR p)%R -> n * o + m <= p -> ping w b o = Ok s -> echo s g m x -> m * q = k * o * o ->
  r < num_chirps w -> q * i < n * o ->
  at0 (beats w b o p x r) (q * i) = if m <=? q * i then (conj g * tone w b o m * cis (turn n k i))%C else RtoC 0.
Proof.
  intros w b o n p s g m k q x r i Hb Ho Ht Hn Hp H E He Hk Hr Hi. assert (O : (0 < INR o)%R) by (apply lt_0_INR; lia).
  assert (Hc : (chirp_duration w * rate_of b o = INR (n * o))%R) by (unfold rate_of; rewrite mult_INR, <- Hn; ring).
  assert (C0 := chirp_aligned w b o _ Hc). unfold beats. rewrite C0, Sc_Proofs.at0_map_seq. destruct (Nat.ltb_spec (q * i) (n * o)); [|lia].
  rewrite (echo_row w b o (n * o) p s g m x r (q * i) Hc Hp H E He Hr Hi). destruct (Nat.leb_spec m (q * i)) as [A|A]; [|rewrite conj_R; ring].
  rewrite !at0_chirp by (rewrite C0; lia). rewrite conj_mult. 
  transitivity (conj g * (conj (cis (chirp_phase w b (INR (q * i - m) / rate_of b o))) * cis (chirp_phase w b (INR (q * i) / rate_of b o))))%C; [ring|].
  rewrite beat_phase by assumption. rewrite Cmult_assoc. f_equal. f_equal. unfold turn. rewrite mult_INR, <- Hn. unfold rate_of.
  assert (K : (INR m * INR q = INR k * INR o * INR o)%R) by (rewrite <- !mult_INR, Hk; reflexivity).
  transitivity (2 * PI * (b / chirp_duration w) * (INR m * INR q) * INR i / (b * INR o) ^ 2)%R; [unfold Rdiv; ring|]. rewrite K. field. lra.
Qed.
Lemma ceil_div_le_iff : forall m q i, 0 < q -> (m <=? q * i) = (ceil_div m q <=? i).
Proof.
  intros m q i Hq. destruct (ceil_div_spec m q Hq) as [A B]. destruct (Nat.leb_spec m (q * i)) as [C|C]; destruct (Nat.leb_spec (ceil_div m q) i) as [D|D]; try reflexivity; exfalso.
  - specialize (B i ltac:(rewrite Nat.mul_comm; exact C)). lia.
  - nia.
Qed.
Lemma at0_every : forall q l L i, 0 < q -> length l = q * L -> at0 (every q l) i = if i <? L then at0 l (q * i) else RtoC 0.
Proof. intros q l L i Hq H. unfold every. rewrite Sc_Proofs.at0_map_seq. rewrite H, (Nat.mul_comm q L), ceil_div_exact by exact Hq. reflexivity. Qed.
Lemma length_beats : forall w b o p x r, length (beats w b o p x r) = chirp_samples w b o.
Proof. intros. unfold beats. rewrite map_length, seq_length. reflexivity. Qed.
Lemma sampled_row : forall w b o n p s g m k q L x r i, (0 < b)%R -> 1 <= o -> (0 < chirp_duration w)%R ->
  (chirp_duration w * b = INR n)%R -> (interval w * rate_of b o = INR p)%R -> n * o + m <= p -> ping w b o = Ok s -> echo s g m x -> m * q = k * o * o -> 0 < q -> q * L = n * o ->
  r < num_chirps w ->
  at0 (every q (beats w b o p x r)) i = if (ceil_div m q <=? i) && (i <? L) then (conj g * tone w b o m * cis (turn n k i))%C else RtoC 0.
Proof.
  intros w b o n p s g m k q L x r i Hb Ho Ht Hn Hp H E He Hk Hq HL Hr.
  assert (Hc : (chirp_duration w * rate_of b o = INR (n * o))%R) by (unfold rate_of; rewrite mult_INR, <- Hn; ring).
  rewrite (at0_every q _ L) by (rewrite ?length_beats, ?(chirp_aligned w b o _ Hc); congruence || exact Hq).
  destruct (Nat.ltb_spec i L) as [A|A]; [|rewrite andb_false_r; reflexivity]. rewrite andb_true_r.
  rewrite (beat_samples w b o n p s g m k q x r i) by (assumption || nia). rewrite ceil_div_le_iff by exact Hq. reflexivity.
Qed.
Lemma tone_modulus : forall w b o m, Cmod (tone w b o m) = 1%R.
Proof. intros. apply Mf_Proofs.cmod_cis. Qed.
(** Spectrum of the sampled beat *)
Lemma spectrum : forall w b o n p s g m k q L x j, (0 < b)%R -> 1 <= o -> (0 < chirp_duration w)%R ->
  (chirp_duration w * b = INR n)%R -> (interval w * rate_of b o = INR p)%R -> n * o + m <= p -> ping w b o = Ok s -> echo s g m x -> m * q = k * o * o -> 0 < q -> q * L = n * o ->
  1 <= num_chirps w -> o <= q -> m <= n * o ->
  csum (fun c => at0 (every q (beats w b o p x 0)) c * cis (- turn n j c))%C n =
  (conj g * tone w b o m * csum (fun i => cis (turn n k (ceil_div m q + i) - turn n j (ceil_div m q + i))) (L - ceil_div m q))%C.
Proof.
  intros w b o n p s g m k q L x j Hb Ho Ht Hn Hp H E He Hk Hq HL Hr Hoq Hm.
  rewrite (csum_ext _ (fun c => if (ceil_div m q <=? c) && (c <? L) then (conj g * tone w b o m * cis (turn n k c - turn n j c))%C else RtoC 0)).
  - rewrite csum_window; [apply csum_scal| |nia]. apply (proj2 (ceil_div_spec m q Hq)). rewrite (Nat.mul_comm L q). lia.
  - intros c Hc. rewrite (sampled_row w b o n p s g m k q L x 0 c) by (assumption || lia). destruct ((ceil_div m q <=? c) && (c <? L)); [|ring]. unfold Rminus. rewrite cis_add. ring.
Qed.
