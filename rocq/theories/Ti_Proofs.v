(** Proofs about the TI XWR1843 radar waveform *)
From Coq Require Import List Reals Bool Arith ZArith Lia Lra.
From Coquelicot Require Import Complex.
From Verif Require Import Base BaseLemmas Cplx Cplx_Proofs Grid_Spec Ofdm_Proofs Radar_Model Fmcw_Proofs Ti_Model Ti_Spec.
Import ListNotations.
Local Open Scope nat_scope.

Lemma whole_spec : forall x, (0 <= x)%R -> (INR (whole x) <= x < INR (whole x) + 1)%R.
Proof.
  intros x H. unfold whole. pose proof (base_Int_part x) as [A B]. assert (P : (0 <= Int_part x)%Z). { apply Z.lt_succ_r. unfold Z.succ. apply lt_IZR. rewrite plus_IZR. lra. }
  rewrite INR_IZR_INZ, Z2Nat.id by exact P. lra.
Qed.
Lemma whole_unique : forall x n, (INR n <= x < INR n + 1)%R -> whole x = n.
Proof.
  intros x n H. assert (P : (0 <= x)%R) by (pose proof (pos_INR n); lra). pose proof (whole_spec x P) as Q.
  assert (A : (INR n < INR (whole x + 1))%R) by (rewrite plus_INR; cbn [INR]; lra). assert (B : (INR (whole x) < INR (n + 1))%R) by (rewrite plus_INR; cbn [INR]; lra).
  apply INR_lt in A. apply INR_lt in B. lia.
Qed.
Lemma whole_le : forall x y, (0 <= x <= y)%R -> whole x <= whole y.
Proof.
  intros x y H. pose proof (whole_spec x ltac:(lra)). pose proof (whole_spec y ltac:(lra)). assert (A : (INR (whole x) < INR (whole y + 1))%R) by (rewrite plus_INR; cbn [INR]; lra). apply INR_lt in A. lia.
Qed.
Lemma whole_half : forall x, (0 <= x)%R -> whole (x / 2) = whole x / 2.
Proof.
  intros x H. apply whole_unique. pose proof (whole_spec x H) as Q. pose proof (Nat.div_mod (whole x) 2 ltac:(lia)) as D. pose proof (Nat.mod_upper_bound (whole x) 2 ltac:(lia)) as M.
  set (h := whole x / 2) in *. set (m := whole x mod 2) in *. assert (E : INR (whole x) = (2 * INR h + INR m)%R). { rewrite D, plus_INR, mult_INR. reflexivity. }
  assert (B : (0 <= INR m <= 1)%R). { split; [apply pos_INR|]. change 1%R with (INR 1). apply le_INR. lia. } lra.
Qed.

Lemma adc_pos : (0 < adc_rate)%R. Proof. unfold adc_rate. lra. Qed.
Lemma decimation_pos : forall r, 0 < decimation r.
Proof.
  intro r. unfold decimation. unfold Rltb. destruct (Rlt_dec adc_rate r) as [H|H]; [|lia]. pose proof adc_pos as P.
  assert (Q : (1 < r / adc_rate)%R). { apply Rmult_lt_reg_r with adc_rate; [exact P|]. unfold Rdiv. rewrite Rmult_assoc, Rinv_l by lra. lra. }
  apply INR_lt. pose proof (whole_spec (r / adc_rate) ltac:(lra)). cbn [INR]. lra.
Qed.
Lemma decimated_slow : forall r, (r <= adc_rate)%R -> decimated_rate r = r /\ decimation r = 1.
Proof. intros r H. unfold decimated_rate, decimation, Rltb. destruct (Rlt_dec adc_rate r); [lra|]. split; [cbn; field|reflexivity]. Qed.
Lemma decimated_fast : forall r, (adc_rate < r)%R -> (adc_rate <= decimated_rate r)%R /\ (decimated_rate r < adc_rate + adc_rate / INR (decimation r))%R.
Proof.
  intros r H. pose proof (decimation_pos r) as K. apply lt_0_INR in K. unfold decimated_rate. revert K. unfold decimation, Rltb. destruct (Rlt_dec adc_rate r); [|lra]. intro K.
  pose proof adc_pos as P. assert (Q : (0 <= r / adc_rate)%R). { apply Rmult_le_pos; [lra|]. left. apply Rinv_0_lt_compat. exact P. }
  destruct (whole_spec _ Q) as [A B]. set (k := INR (whole (r / adc_rate))) in *. assert (E : (r = r / adc_rate * adc_rate)%R) by (field; lra). set (z := (r / adc_rate)%R) in *. clearbody z k. subst r. split.
  - apply Rmult_le_reg_r with k; [exact K|]. replace (z * adc_rate / k * k)%R with (z * adc_rate)%R by (field; lra). rewrite Rmult_comm. apply Rmult_le_compat_r; lra.
  - apply Rmult_lt_reg_r with k; [exact K|]. replace (z * adc_rate / k * k)%R with (z * adc_rate)%R by (field; lra). replace ((adc_rate + adc_rate / k) * k)%R with ((k + 1) * adc_rate)%R by (field; lra). apply Rmult_lt_compat_r; lra.
Qed.
Lemma decimated_ge : forall r, (0 < r)%R -> (0 < decimated_rate r)%R.
Proof. intros r H. destruct (Rle_dec r adc_rate) as [L|L]; [rewrite (proj1 (decimated_slow r L)); exact H|]. pose proof (decimated_fast r ltac:(lra)). pose proof adc_pos. lra. Qed.

(** ** The transform *)
Lemma div_lt2 : forall n, 0 < n -> n / 2 < n.
Proof. intros n H. apply Nat.div_lt; lia. Qed.
Lemma nth_fftshift : forall {B} (x : list B) d i, i < length x -> nth i (fftshift x) d = nth ((i + (length x - length x / 2)) mod length x) x d.
Proof.
  intros B x d i H. unfold fftshift. pose proof (div_lt2 (length x) ltac:(lia)) as D. rewrite rotate_roll, nth_rotate by lia. destruct (Nat.ltb_spec i (length x / 2)) as [L|L].
  - rewrite Nat.mod_small by lia. f_equal. lia.
  - f_equal. replace (i + (length x - length x / 2)) with (i - length x / 2 + 1 * length x) by lia. rewrite Nat.mod_add by lia. symmetry. apply Nat.mod_small. lia.
Qed.
Lemma length_transform : forall n s, length (transform n s) = length s.
Proof. intros. unfold transform. rewrite length_fft_cols, map_length. reflexivity. Qed.
Lemma width_transform : forall n s i, i < length s -> length (nth i (transform n s) []) = n.
Proof. intros n s i H. unfold transform, fft_cols. rewrite nth_tab by (rewrite map_length; exact H). unfold tab. rewrite map_length, seq_length. reflexivity. Qed.
Lemma length_half : forall n g, length (range_half n g) = length g.
Proof. intros. unfold range_half, fftshift. rewrite map_length, length_roll_right. reflexivity. Qed.
Lemma half_row : forall n (g : list (list C)) i, i < length g -> nth i (range_half n g) [] = rev (firstn (n / 2 + 1) (fftshift (nth ((i + (length g - length g / 2)) mod length g) g []))).
Proof.
  intros n g i H. unfold range_half. rewrite (nth_map' _ _ []) by (unfold fftshift; rewrite length_roll_right; exact H). rewrite (nth_fftshift g [] i H). reflexivity.
Qed.
Lemma half_width : forall n (g : list (list C)) i, 0 < n -> i < length g -> (forall k, k < length g -> length (nth k g []) = n) -> length (nth i (range_half n g) []) = n / 2 + 1.
Proof.
  intros n g i Hn Hi W. rewrite half_row by exact Hi. rewrite rev_length, firstn_length. unfold fftshift. rewrite length_roll_right, W by (apply Nat.mod_upper_bound; lia). pose proof (div_lt2 n Hn). lia.
Qed.
Lemma half_entry : forall n (g : list (list C)) i j, 0 < n -> i < length g -> j < n / 2 + 1 -> (forall k, k < length g -> length (nth k g []) = n) ->
  at0 (nth i (range_half n g) []) j = at2 g ((i + (length g - length g / 2)) mod length g) ((n - j) mod n).
Proof.
  intros n g i j Hn Hi Hj W. rewrite half_row by exact Hi. set (u := (i + (length g - length g / 2)) mod length g). assert (U : u < length g) by (apply Nat.mod_upper_bound; lia). pose proof (div_lt2 n Hn) as D.
  assert (L : length (fftshift (nth u g [])) = n) by (unfold fftshift; rewrite length_roll_right; apply W; exact U).
  assert (F : length (firstn (n / 2 + 1) (fftshift (nth u g []))) = n / 2 + 1) by (rewrite firstn_length; lia).
  unfold at2, at0. rewrite rev_nth by lia. rewrite F, nth_firstn' by lia. rewrite nth_fftshift by (rewrite (W u U); lia). rewrite (W u U). f_equal. f_equal. lia.
Qed.
Lemma at2_transform : forall n (s : list (list C)) u v, u < length s -> v < n -> (forall k, k < length s -> length (nth k s []) = n) ->
  at2 (transform n s) u v = (RtoC (/ INR (length s)) * csum (fun a => RtoC (/ INR n) * csum (fun b => at0 (nth a s []) b * cis (- turn n v b)) n * cis (- turn (length s) u a)) (length s))%C.
Proof.
  intros n s u v Hu Hv W. unfold at2, transform, fft_cols. rewrite nth_tab by (rewrite map_length; exact Hu). rewrite Cplx_Proofs.at0_tab by exact Hv. rewrite map_length. unfold fft_at at 1. cbn [fft_scale]. f_equal. apply csum_ext. intros a Ha. f_equal.
  unfold at2. rewrite (nth_map' _ _ []) by exact Ha. unfold fft. rewrite (W a Ha). rewrite Cplx_Proofs.at0_tab by exact Hv. reflexivity.
Qed.
Lemma column_sum : forall n (q : Z) v, 0 < n -> v < n -> csum (fun b => cis (2 * PI * (IZR q * INR b / INR n)) * cis (- turn n v b))%C n = if ((Z.of_nat v - q) mod Z.of_nat n =? 0)%Z then RtoC (INR n) else RtoC 0.
Proof.
  intros n q v Hn Hv. replace (Z.of_nat v - q)%Z with (- q + Z.of_nat v)%Z by lia. rewrite <- (rows_transform n (- q) v Hn Hv). apply csum_ext. intros b _. f_equal. f_equal. rewrite opp_IZR. unfold Rdiv. ring.
Qed.
(** The transform of an echo *)
Lemma transform_echo : forall A chirps n (p q : Z) (s : list (list C)) u v, 0 < n -> length s = chirps -> u < chirps -> v < n -> (forall k, k < chirps -> length (nth k s []) = n) ->
  (forall a b, a < chirps -> b < n -> at0 (nth a s []) b = (A * cis (2 * PI * (IZR p * INR a / INR chirps + IZR q * INR b / INR n)))%C) ->
  at2 (transform n s) u v = if ((Z.of_nat u - p) mod Z.of_nat chirps =? 0)%Z && ((Z.of_nat v - q) mod Z.of_nat n =? 0)%Z then A else RtoC 0.
Proof.
  intros A chirps n p q s u v Hn L Hu Hv W E. rewrite at2_transform by (try (rewrite L); assumption). rewrite L.
  set (c := csum (fun b => cis (2 * PI * (IZR q * INR b / INR n)) * cis (- turn n v b))%C n).
  rewrite (csum_ext (fun a => (RtoC (/ INR n) * csum (fun b => at0 (nth a s []) b * cis (- turn n v b)) n * cis (- turn chirps u a))%C) (fun a => (RtoC (/ INR n) * A * c) * (cis (2 * PI * (IZR p * INR a / INR chirps)) * cis (- turn chirps u a)))%C).
  - rewrite csum_scal, column_sum by lia. unfold c. rewrite column_sum by lia. assert (N1 : INR n <> 0%R) by (apply not_0_INR; lia). assert (N2 : INR chirps <> 0%R) by (apply not_0_INR; lia).
    assert (I1 : (RtoC (/ INR n) * RtoC (INR n) = RtoC 1)%C) by (rewrite <- RtoC_mult; f_equal; field; exact N1). assert (I2 : (RtoC (/ INR chirps) * RtoC (INR chirps) = RtoC 1)%C) by (rewrite <- RtoC_mult; f_equal; field; exact N2).
    destruct (_ =? 0)%Z; destruct (_ =? 0)%Z; cbn [andb]; try ring. transitivity (RtoC (/ INR chirps) * RtoC (INR chirps) * (RtoC (/ INR n) * RtoC (INR n)) * A)%C; [ring|]. rewrite I1, I2. ring.
  - intros a Ha. rewrite (csum_ext (fun b => (at0 (nth a s []) b * cis (- turn n v b))%C) (fun b => (A * cis (2 * PI * (IZR p * INR a / INR chirps))) * (cis (2 * PI * (IZR q * INR b / INR n)) * cis (- turn n v b)))%C).
    + rewrite csum_scal. fold c. ring.
    + intros b Hb. rewrite (E a b Ha Hb). rewrite Rmult_plus_distr_l, cis_add. ring.
Qed.

(** ** Estimation *)
Lemma nth_block : forall (x : list C) chirps n a b, length x = chirps * n -> a < chirps -> b < n -> at0 (nth a (blocks_of chirps n x) []) b = at0 x (a * n + b).
Proof.
  intros x chirps n a b L Ha Hb. unfold blocks_of. rewrite (nth_map' _ _ 0) by (rewrite seq_length; exact Ha). rewrite seq_nth by exact Ha. cbn [Nat.add]. unfold at0, slice. rewrite nth_firstn' by lia. rewrite nth_skipn'. reflexivity.
Qed.
Lemma reshape_one : forall rows columns x, length x = rows * columns -> reshape rows columns [x] = Ok (blocks_of rows columns x).
Proof. intros rows columns x L. unfold reshape. cbn [concat]. rewrite app_nil_r. rewrite (proj2 (Nat.eqb_eq _ _) L). reflexivity. Qed.
Lemma estimate_one : forall resample p r line, faithful resample ->
  estimate resample p r [line] = Ok (powers (range_half (chirp_samples p r) (transform (chirp_samples p r) (blocks_of (num_chirps p) (chirp_samples p r) (resample (chirp_samples p r * num_chirps p) (every (decimation r) line)))))).
Proof. intros resample p r line [L _]. unfold estimate. cbn [map]. rewrite reshape_one by (rewrite L; lia). reflexivity. Qed.
Lemma block_width : forall (x : list C) chirps n k, length x = n * chirps -> k < chirps -> length (nth k (blocks_of chirps n x) []) = n.
Proof.
  intros x chirps n k L H. pose proof (blocks_of_all_len chirps n x ltac:(lia)) as F. rewrite List.Forall_forall in F. apply F. apply nth_In. rewrite length_blocks_of. exact H.
Qed.
Lemma estimate_shape : forall resample p r line g, faithful resample -> 0 < chirp_samples p r -> estimate resample p r [line] = Ok g ->
  length g = num_chirps p /\ forall i, i < num_chirps p -> length (nth i g []) = chirp_samples p r / 2 + 1.
Proof.
  intros resample p r line g F Hn E. rewrite estimate_one in E by exact F. assert (inj : forall a b : list (list R), Ok a = Ok b -> a = b) by congruence. apply inj in E. subst g. unfold powers. rewrite map_length, length_half, length_transform, length_blocks_of. split; [reflexivity|].
  intros i Hi. rewrite (nth_map' _ _ []) by (rewrite length_half, length_transform, length_blocks_of; exact Hi). rewrite map_length. apply half_width; [exact Hn|rewrite length_transform, length_blocks_of; exact Hi|].
  intros k Hk. rewrite length_transform, length_blocks_of in Hk. apply width_transform. rewrite length_blocks_of. exact Hk.
Qed.
Lemma every_echo : forall k (line : list C) (x : list C), 0 < k -> length line = k * length x -> (forall i, i < length x -> at0 line (i * k) = at0 x i) -> every k line = x.
Proof.
  intros k line x Hk L E. unfold every. assert (Q : ceil_div (length line) k = length x). { rewrite L. unfold ceil_div. symmetry. apply Nat.div_unique with (k - 1); lia. } rewrite Q.
  apply nth_ext with (d := RtoC 0) (d' := RtoC 0); [unfold tab; rewrite map_length, seq_length; reflexivity|]. intros i Hi. unfold tab in Hi. rewrite map_length, seq_length in Hi. rewrite nth_tab by exact Hi. apply E. exact Hi.
Qed.
Lemma length_echo : forall A chirps n p q, length (echo A chirps n p q) = chirps * n.
Proof. intros. unfold echo, tab. rewrite map_length, seq_length. reflexivity. Qed.
Lemma estimate_echo : forall resample w r A p q line, faithful resample -> 0 < num_chirps w -> 0 < chirp_samples w r ->
  length line = decimation r * (num_chirps w * chirp_samples w r) -> (forall i, i < num_chirps w * chirp_samples w r -> at0 line (i * decimation r) = at0 (echo A (num_chirps w) (chirp_samples w r) p q) i) ->
  exists g, estimate resample w r [line] = Ok g /\ length g = num_chirps w /\ (forall i, i < num_chirps w -> length (nth i g []) = chirp_samples w r / 2 + 1) /\
  forall i j, i < num_chirps w -> j < chirp_samples w r / 2 + 1 -> nth j (nth i g []) 0%R =
    if ((Z.of_nat ((i + (num_chirps w - num_chirps w / 2)) mod num_chirps w) - p) mod Z.of_nat (num_chirps w) =? 0)%Z && ((Z.of_nat ((chirp_samples w r - j) mod chirp_samples w r) - q) mod Z.of_nat (chirp_samples w r) =? 0)%Z
    then (Cmod A ^ 2)%R else 0%R.
Proof.
  intros resample w r A p q line F HN Hn L E. destruct (estimate resample w r [line]) as [g|e] eqn:G; [|rewrite estimate_one in G by exact F; discriminate].
  exists g. split; [reflexivity|]. destruct (estimate_shape _ _ _ _ _ F Hn G) as [G1 G2]. split; [exact G1|]. split; [exact G2|]. intros i j Hi Hj.
  rewrite estimate_one in G by exact F. assert (inj : forall a b : list (list R), Ok a = Ok b -> a = b) by congruence. apply inj in G. subst g. clear G1 G2.
  rewrite (every_echo _ _ (echo A (num_chirps w) (chirp_samples w r) p q)) by (rewrite ?length_echo; auto using decimation_pos). destruct F as [_ F].
  assert (EQ : chirp_samples w r * num_chirps w = length (echo A (num_chirps w) (chirp_samples w r) p q)) by (rewrite length_echo; lia). 
  set (n := chirp_samples w r) in *. set (N := num_chirps w) in *. rewrite EQ, F. set (s := blocks_of N n (echo A N n p q)).
  assert (Ls : length s = N) by (unfold s; apply length_blocks_of). assert (Ws : forall k, k < N -> length (nth k s []) = n) by (intros k Hk; apply block_width; [rewrite length_echo; lia|exact Hk]).
  unfold powers. rewrite (nth_map' _ _ []) by (rewrite length_half, length_transform, Ls; exact Hi). rewrite (nth_map' _ _ (RtoC 0)) by (rewrite half_width; [exact Hj|exact Hn|rewrite length_transform, Ls; exact Hi|intros k Hk; rewrite length_transform in Hk; apply width_transform; exact Hk]).
  fold (at0 (nth i (range_half n (transform n s)) []) j). rewrite half_entry by (rewrite ?length_transform, ?Ls; try assumption; intros k Hk; apply width_transform; rewrite Ls; exact Hk). rewrite length_transform, Ls.
  rewrite (transform_echo A N n p q); try assumption; [|apply Nat.mod_upper_bound; lia|apply Nat.mod_upper_bound; lia|].
  - destruct (_ && _); [reflexivity|]. rewrite Cmod_0. ring.
  - intros a b Ha Hb. unfold s. rewrite nth_block by (rewrite ?length_echo; assumption || lia). unfold echo. rewrite Cplx_Proofs.at0_tab by nia. rewrite Nat.div_add_l by lia. rewrite (Nat.div_small b n Hb), Nat.add_0_r. rewrite Nat.add_comm, Nat.mod_add by lia. rewrite (Nat.mod_small b n Hb). reflexivity.
Qed.
Lemma mod_zero_small : forall (d : Z) n, (- Z.of_nat n < d < Z.of_nat n)%Z -> (d mod Z.of_nat n =? 0)%Z = (d =? 0)%Z.
Proof.
  intros d n H. destruct (Z.eqb_spec d 0) as [->|Hd]; [reflexivity|]. apply Z.eqb_neq. intro M. apply Z.mod_divide in M; [|lia]. destruct M as [k M]. destruct (Z.eq_dec k 0); [lia|]. nia.
Qed.
Lemma mod_shift : forall (a : nat) (b : Z) n, 0 < n -> ((Z.of_nat (a mod n) - b) mod Z.of_nat n = (Z.of_nat a - b) mod Z.of_nat n)%Z.
Proof. intros a b n H. rewrite Nat2Z.inj_mod. apply Zminus_mod_idemp_l. Qed.
Lemma row_found : forall N (p : Z) i, 0 < N -> i < N -> (- Z.of_nat (N / 2) <= p < Z.of_nat (N - N / 2))%Z ->
  ((Z.of_nat ((i + (N - N / 2)) mod N) - p) mod Z.of_nat N =? 0)%Z = (i =? Z.to_nat (Z.of_nat (N / 2) + p)).
Proof.
  intros N p i HN Hi Hp. rewrite mod_shift by exact HN. pose proof (div_lt2 N HN) as D. replace (Z.of_nat (i + (N - N / 2)) - p)%Z with ((Z.of_nat i - Z.of_nat (N / 2) - p) + 1 * Z.of_nat N)%Z by lia. rewrite Z.mod_add by lia.
  rewrite mod_zero_small by lia. destruct (Nat.eqb_spec i (Z.to_nat (Z.of_nat (N / 2) + p))); [apply Z.eqb_eq|apply Z.eqb_neq]; lia.
Qed.
Lemma column_found : forall n (q : Z) j, 0 < n -> j < n / 2 + 1 -> ((Z.of_nat ((n - j) mod n) - q) mod Z.of_nat n =? 0)%Z = ((- q - Z.of_nat j) mod Z.of_nat n =? 0)%Z.
Proof.
  intros n q j Hn Hj. rewrite mod_shift by exact Hn. pose proof (div_lt2 n Hn). replace (Z.of_nat (n - j) - q)%Z with ((- q - Z.of_nat j) + 1 * Z.of_nat n)%Z by lia. rewrite Z.mod_add by lia. reflexivity.
Qed.

(** ** Bins *)
Lemma length_range_bins : forall w, length (range_bins w) = num_range_bins w.
Proof. intro w. unfold range_bins, linspace, tab. rewrite map_length, seq_length. reflexivity. Qed.
Lemma range_bin : forall w j, (0 < chirp_slope w)%R -> (0 < chirp_interval w)%R -> j < num_range_bins w -> 0 < whole (chirp_interval w * adc_rate / 2) ->
  nth j (range_bins w) 0%R = (beat_range (chirp_slope w) (INR j / chirp_interval w) * (chirp_interval w * adc_rate / (2 * INR (whole (chirp_interval w * adc_rate / 2)))))%R.
Proof.
  intros w j Hs Ht Hj Hk. unfold range_bins, linspace. rewrite nth_tab by exact Hj. unfold num_range_bins. rewrite Nat.add_sub. apply lt_0_INR in Hk as K. destruct (Nat.eqb_spec (whole (chirp_interval w * adc_rate / 2) + 1) 1); [lia|].
  unfold beat_range, max_range. field. lra.
Qed.
(** ** Reception *)
Lemma filter_shift : forall (f : nat -> bool) l, filter f (map S l) = map S (filter (fun i => f (S i)) l).
Proof. intros f l. induction l as [|a l IH]; [reflexivity|]. cbn [map filter]. rewrite IH. destruct (f (S a)); reflexivity. Qed.
Lemma picked_pairs : forall (f : R -> bool) (l row : list R), length l <= length row ->
  map (fun c => nth c row 0%R) (filter (fun i => f (nth i l 0%R)) (seq 0 (length l))) = map snd (filter (fun x => f (fst x)) (combine l row)).
Proof.
  intros f l. induction l as [|a l IH]; intros row H; [reflexivity|]. destruct row as [|b row]; [cbn in H; lia|]. cbn [length] in *. cbn [seq]. rewrite <- seq_shift. cbn [filter combine fst nth]. rewrite filter_shift. cbn [nth].
  destruct (f a); cbn [map nth snd]; rewrite map_map; cbn [nth]; rewrite IH by lia; reflexivity.
Qed.
Lemma picked_labels : forall (f : R -> bool) (l : list R), map (fun c => nth c l 0%R) (filter (fun i => f (nth i l 0%R)) (seq 0 (length l))) = filter f l.
Proof.
  intros f l. induction l as [|a l IH]; [reflexivity|]. cbn [length seq]. rewrite <- seq_shift. cbn [filter nth]. rewrite filter_shift. cbn [nth]. destruct (f a); cbn [map nth]; rewrite map_map; cbn [nth]; rewrite IH; reflexivity.
Qed.
Lemma enough_columns : forall w r, (0 < chirp_interval w)%R -> (adc_rate <= r)%R -> num_range_bins w <= chirp_samples w r / 2 + 1.
Proof.
  intros w r Ht Hr. unfold num_range_bins, chirp_samples. pose proof adc_pos as P. assert (Q : (adc_rate <= decimated_rate r)%R). { destruct (Rle_dec r adc_rate) as [L|L]; [rewrite (proj1 (decimated_slow r L)); exact Hr|]. apply decimated_fast. lra. }
  assert (0 <= chirp_interval w * adc_rate)%R by (apply Rmult_le_pos; lra). rewrite whole_half by assumption. apply Nat.add_le_mono_r. apply Nat.div_le_mono; [lia|]. apply whole_le. split; [assumption|]. apply Rmult_le_compat_l; lra.
Qed.
Lemma received : forall resample w m r line e, faithful resample -> 0 < chirp_samples w r -> num_range_bins w <= chirp_samples w r / 2 + 1 -> estimate resample w r [line] = Ok e ->
  receive_line resample w m r line = Ok (map (fun row => map snd (filter (fun x => Rleb m (fst x)) (combine (range_bins w) row))) e, filter (Rleb m) (range_bins w)).
Proof.
  intros resample w m r line e F Hn Hb E. unfold receive_line. rewrite E. cbn [bind]. unfold pick. assert (A : forallb (fun c => c <? chirp_samples w r / 2 + 1) (selected w m) = true).
  { apply forallb_forall. intros c Hc. unfold selected in Hc. apply filter_In in Hc. destruct Hc as [Hc _]. apply in_seq in Hc. apply Nat.ltb_lt. lia. }
  rewrite A. cbn [bind]. unfold selected. rewrite <- length_range_bins. rewrite picked_labels. do 2 f_equal. apply map_ext_in. intros row Hrow. apply picked_pairs. rewrite length_range_bins.
  destruct (estimate_shape _ _ _ _ _ F Hn E) as [G1 G2]. apply In_nth with (d := []) in Hrow. destruct Hrow as (i & Hi & <-). rewrite G2 by lia. exact Hb.
Qed.
Lemma last_bin : forall w, 0 < whole (chirp_interval w * adc_rate / 2) -> nth (num_range_bins w - 1) (range_bins w) 0%R = max_range w.
Proof.
  intros w H. unfold range_bins, linspace. rewrite nth_tab by (unfold num_range_bins; lia). destruct (Nat.eqb_spec (num_range_bins w) 1) as [E|E]; [unfold num_range_bins in E; lia|]. field. apply not_0_INR. unfold num_range_bins. lia.
Qed.
