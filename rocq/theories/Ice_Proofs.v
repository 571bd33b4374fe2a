(** Proofs about ideal channel estimation *)
From Coq Require Import List Reals Bool Arith Lia Lra.
From Coquelicot Require Import Complex.
From Verif Require Import Base BaseLemmas Cplx Cplx_Proofs Ofdm_Model Ofdm_Proofs Leak_Proofs Sc_Model Sc_Spec Sc_Proofs Ice_Model Ice_Spec.
Import ListNotations.
Local Open Scope nat_scope.

(** ** Bins *)
Lemma slice_map : forall {A B} (f : A -> B) a b l, slice a b (map f l) = map f (slice a b l).
Proof. intros A B f a b l. unfold slice. rewrite skipn_map, firstn_map. reflexivity. Qed.
Lemma roll_left_map : forall {A B} (f : A -> B) s l, roll_left s (map f l) = map f (roll_left s l).
Proof. intros A B f s l. unfold roll_left. rewrite skipn_map, firstn_map, map_app. reflexivity. Qed.
Lemma roll_right_map : forall {A B} (f : A -> B) s l, roll_right s (map f l) = map f (roll_right s l).
Proof. intros A B f s l. unfold roll_right. rewrite ?skipn_map, ?firstn_map, ?map_length, ?map_app, ?roll_left_map. reflexivity. Qed.
Lemma bins_map : forall {A B} (f : A -> B) dc n os l, bins dc n os (map f l) = map f (bins dc n os l).
Proof.
  intros A B f dc n os l. unfold bins, fftshift. rewrite map_length, roll_right_map. destruct dc; [|apply slice_map].
  unfold roll_tail_left. rewrite skipn_map, firstn_map, roll_left_map, <- map_app. apply slice_map.
Qed.
Lemma map_fst_combine : forall {A B} (a : list A) (b : list B), length a = length b -> map fst (combine a b) = a.
Proof. intros A B a. induction a as [|x a IH]; intros [|y b] L; try discriminate; [reflexivity|]. cbn. f_equal. apply IH. cbn in L. lia. Qed.
Lemma map_snd_combine : forall {A B} (a : list A) (b : list B), length a = length b -> map snd (combine a b) = b.
Proof. intros A B a. induction a as [|x a IH]; intros [|y b] L; try discriminate; [reflexivity|]. cbn. f_equal. apply IH. cbn in L. lia. Qed.
Lemma combine_split_map : forall {A B} (l : list (A * B)), combine (map fst l) (map snd l) = l.
Proof. intros A B l. induction l as [|[a b] l IH]; [reflexivity|]. cbn. rewrite IH. reflexivity. Qed.
Lemma bins_products : forall dc n os a b, length a = length b -> bins dc n os (products a b) = products (bins dc n os a) (bins dc n os b).
Proof.
  intros dc n os a b L. unfold products. rewrite bins_map. f_equal. rewrite <- (combine_split_map (bins dc n os (combine a b))), <- !bins_map, map_fst_combine, map_snd_combine by exact L. reflexivity.
Qed.
Lemma backward_bins : forall dc n os y, ofdm_backward_word dc n os y = map (fun c => (c * RtoC (/ sqrt (INR n) / INR os))%C) (bins dc n os (fft Backward y)).
Proof. reflexivity. Qed.
Lemma at0_products : forall a b i, length a = length b -> at0 (products a b) i = (at0 a i * at0 b i)%C.
Proof.
  intros a b i L. unfold at0, products. destruct (Nat.lt_ge_cases i (length a)) as [H|H].
  - rewrite (nth_map' (fun p : C * C => (fst p * snd p)%C) (combine a b) (RtoC 0, RtoC 0)) by (rewrite combine_length; lia). rewrite combine_nth by exact L. reflexivity.
  - rewrite !nth_overflow by (rewrite ?map_length, ?combine_length; lia). ring.
Qed.
Lemma length_products : forall a b, length (products a b) = Nat.min (length a) (length b).
Proof. intros a b. unfold products. rewrite map_length. apply combine_length. Qed.

(** ** Circular convolution *)
Lemma over_circular : forall f d p x t, p <= length x -> d <= p + 1 -> t < length x ->
  at0 (over f d p x) t = csum (fun k => f k * at0 x ((length x + t - k) mod length x))%C d.
Proof.
  intros f d p x t P D T. unfold over. rewrite Cplx_Proofs.at0_tab by exact T. apply csum_ext. intros k K. f_equal. unfold prefixed, at0. destruct (Nat.le_gt_cases k t) as [A|A].
  - rewrite app_nth2 by (rewrite skipn_length; lia). rewrite skipn_length. replace (length x + t - k) with ((t - k) + 1 * length x) by lia. rewrite Nat.mod_add, Nat.mod_small by lia. f_equal. lia.
  - rewrite app_nth1 by (rewrite skipn_length; lia). rewrite nth_skipn', Nat.mod_small by lia. f_equal. lia.
Qed.
Lemma length_over : forall f d p x, length (over f d p x) = length x.
Proof. intros f d p x. unfold over, tab. rewrite map_length, seq_length. reflexivity. Qed.
Lemma fft_backward : forall x k, k < length x -> at0 (fft Backward x) k = csum (fun i => at0 x i * cis (- turn (length x) k i))%C (length x).
Proof. intros y j J. unfold fft. rewrite Cplx_Proofs.at0_tab by exact J. unfold fft_at. cbn [fft_scale]. ring. Qed.
Lemma length_tab : forall {A} n (f : nat -> A), length (tab n f) = n.
Proof. intros A n f. unfold tab. rewrite map_length, seq_length. reflexivity. Qed.
(** The spectrum of taps padded with zeros *)
Definition padded_taps (n d : nat) (f : nat -> C) : list C := tab n (fun k => if k <? d then f k else RtoC 0).
Lemma fft_padded : forall n d f k, d <= n -> k < n -> at0 (fft Backward (padded_taps n d f)) k = csum (fun i => f i * cis (- turn n k i))%C d.
Proof.
  intros n d f k D K. unfold padded_taps. rewrite fft_backward by (rewrite length_tab; exact K). rewrite length_tab. rewrite (csum_split _ d (n - d) n) by lia.
  rewrite (csum_ext (fun i => (at0 _ (d + i) * _)%C) (fun _ => RtoC 0)), csum_0.
  - rewrite Cplus_0_r. apply csum_ext. intros i I. rewrite Cplx_Proofs.at0_tab by lia. destruct (Nat.ltb_spec i d); [reflexivity|lia].
  - intros i I. rewrite Cplx_Proofs.at0_tab by lia. destruct (Nat.ltb_spec (d + i) d); [lia|ring].
Qed.
Lemma fft_over : forall f d p x, p <= length x -> d <= p + 1 -> d <= length x -> fft Backward (over f d p x) = products (fft Backward x) (fft Backward (padded_taps (length x) d f)).
Proof.
  intros f d p x P D D'. set (n := length x) in *. apply nth_ext with (d := RtoC 0) (d' := RtoC 0).
  { rewrite length_products, !length_fft, length_over. unfold padded_taps. rewrite length_tab. fold n. lia. }
  intros k K. rewrite length_fft, length_over in K. fold n in K. change (at0 (fft Backward (over f d p x)) k = at0 (products (fft Backward x) (fft Backward (padded_taps n d f))) k).
  rewrite at0_products by (rewrite !length_fft; unfold padded_taps; rewrite length_tab; reflexivity). rewrite fft_padded by assumption. rewrite !fft_backward by (rewrite ?length_over; exact K). rewrite length_over. fold n.
  assert (N0 : INR n <> 0%R) by (apply not_0_INR; lia).
  rewrite (csum_ext _ (fun t => csum (fun i => f i * cis (- turn n k i) * (at0 x ((n + t - i) mod n) * cis (- turn n k ((n + t - i) mod n))))%C d)).
  - rewrite csum_swap. rewrite <- csum_scal. apply csum_ext. intros i I. rewrite csum_scal. rewrite (csum_rotate (fun u => at0 x u * cis (- turn n k u))%C n i) by lia. apply Cmult_comm.
  - intros t T. rewrite (over_circular f d p x t P D T). fold n. rewrite <- csum_scal_r. apply csum_ext. intros i I.
    replace (cis (- turn n k t)) with (cis (- turn n k i) * cis (- turn n k ((n + t - i) mod n)))%C; [ring|]. rewrite <- cis_add. destruct (Nat.le_gt_cases i t) as [A|A].
    + replace (n + t - i) with ((t - i) + 1 * n) by lia. rewrite Nat.mod_add, Nat.mod_small by lia. f_equal. unfold turn. rewrite minus_INR by exact A. field. exact N0.
    + rewrite Nat.mod_small by lia. replace (- turn n k i + - turn n k (n + t - i))%R with (- turn n k t + - (2 * PI * INR k))%R by (unfold turn; rewrite minus_INR, plus_INR by lia; field; exact N0). rewrite cis_add, cis_neg_2PI_nat. ring.
Qed.
Lemma static_average : forall h f len start d, static h f -> 0 < len -> start + len <= samples h -> d < taps h -> average len h start d = f d.
Proof.
  intros h f len start d H L Q D. unfold average. rewrite (csum_ext _ (fun _ => f d)) by (intros t T; apply H; lia). rewrite csum_const. field. intro E. apply RtoC_inj in E. assert (INR len <> 0)%R by (apply not_0_INR; lia). contradiction.
Qed.
Lemma static_word : forall dc n os h f start, static h f -> 0 < os * n -> start + os * n <= samples h ->
  word_states dc n os h start = bins dc n os (fft Backward (padded_taps (os * n) (taps h) f)).
Proof.
  intros dc n os h f start H L Q. unfold word_states, padded_taps. do 2 f_equal. apply tab_ext. intros d D. destruct (Nat.ltb_spec d (taps h)) as [A|A]; [|reflexivity]. apply static_average; assumption.
Qed.
Lemma length_bins : forall {B} dc n os (g : list B), 0 < n -> 0 < os -> length g = os * n -> length (bins dc n os g) = n.
Proof.
  intros B dc n os g N O L. destruct (pad_fits n os N O) as (P1 & P2 & _). unfold bins, slice. assert (E : length (if dc then roll_tail_left (dc_index n os) (fftshift g) else fftshift g) = os * n).
  { destruct dc; [rewrite length_roll_tail_left|]; unfold fftshift; rewrite length_roll_right; exact L. }
  rewrite firstn_length, skipn_length, E. lia.
Qed.
Lemma static_word_received : forall dc n os h f p x start, 0 < n -> 0 < os -> length x = n -> static h f -> taps h <= p + 1 -> taps h <= os * n -> p <= os * n -> start + os * n <= samples h ->
  ofdm_backward_word dc n os (over f (taps h) p (ofdm_forward_word dc n os x)) = products x (word_states dc n os h start) /\ length (word_states dc n os h start) = n.
Proof.
  intros dc n os h f p x start N O L H P D Q E. assert (Lf : length (ofdm_forward_word dc n os x) = os * n) by (apply length_forward; assumption).
  rewrite (static_word dc n os h f start H) by (try exact E; nia). assert (LP : length (fft Backward (padded_taps (os * n) (taps h) f)) = os * n) by (rewrite length_fft; unfold padded_taps; apply length_tab).
  split; [|apply length_bins; assumption]. rewrite backward_bins, fft_over by (rewrite ?Lf; assumption). rewrite Lf, bins_products by (rewrite length_fft, Lf, LP; reflexivity).
  rewrite <- (ofdm_word_roundtrip dc n os N O x L) at 2. rewrite backward_bins. set (a := bins dc n os (fft Backward (ofdm_forward_word dc n os x))). set (b := bins dc n os (fft Backward (padded_taps (os * n) (taps h) f))). unfold products. clearbody a b. clear. revert b. induction a as [|u a IH]; intros [|v b]; try reflexivity. cbn [combine map fst snd]. f_equal; [ring|apply IH].
Qed.

(** ** Single carrier waveforms *)
Lemma length_characteristics : forall s, length (tx s) = length (rx s) -> length (characteristics s) = length (tx s).
Proof. intros s H. unfold characteristics. rewrite map_length, combine_length. lia. Qed.
Lemma filtered_static : forall c h f t d, static h f -> length c <= t + 1 -> t < samples h -> d < taps h -> filtered c h t d = (csum (at0 c) (length c) * f d)%C.
Proof.
  intros c h f t d H L T D. unfold filtered. rewrite <- csum_scal_r. apply csum_ext. intros i I. destruct (Nat.leb_spec i t); [|lia]. destruct (Nat.ltb_spec (t - i) (samples h)); [|lia]. cbn [andb]. rewrite H by lia. reflexivity.
Qed.
Lemma summed_static : forall c os h f t, static h f -> c <> [] -> 0 < os -> 0 < taps h -> length c + Nat.min os (taps h) <= t + 2 -> t < samples h -> summed c os h t = (csum (at0 c) (length c) * csum f (Nat.min os (taps h)))%C.
Proof.
  intros c os h f t H N O D L T. assert (1 <= length c) by (destruct c; [contradiction|cbn; lia]). unfold summed. rewrite (filtered_static c h f t 0 H) by lia. rewrite (csum_ext (fun k => if S k <=? t then _ else _) (fun k => (csum (at0 c) (length c) * f (S k))%C)).
  - rewrite csum_scal. remember (Nat.min os (taps h) - 1) as q eqn:Eq. replace (Nat.min os (taps h)) with (S q) by lia. rewrite (csum_S_l f q). ring.
  - intros k K. destruct (Nat.leb_spec (S k) t); [|lia]. apply filtered_static; try assumption; lia.
Qed.
Lemma filter_all : forall {A} (f : A -> bool) l, (forall x, In x l -> f x = true) -> filter f l = l.
Proof. intros A f l H. induction l as [|a l IH]; [reflexivity|]. cbn. rewrite H by (left; reflexivity). f_equal. apply IH. intros x I. apply H. right. exact I. Qed.
Lemma sc_states_ok : forall s os n h, 0 < taps h -> (n = 0 \/ delay s / 2 + (n - 1) * os < samples h + length (characteristics s) - 1) ->
  sc_states s os n h = Ok (map (fun m => summed (characteristics s) os h (delay s / 2 + m * os)) (seq 0 n)).
Proof.
  intros s os n h D L. unfold sc_states. destruct (Nat.eqb_spec (taps h) 0); [lia|]. cbv zeta. f_equal. f_equal. apply filter_all. intros m M. apply in_seq in M. apply Nat.ltb_lt. destruct L as [->|L]; [lia|]. assert (m * os <= (n - 1) * os) by (apply Nat.mul_le_mono_r; lia). lia.
Qed.
Lemma filtered_ext : forall c h h' t d, samples h = samples h' -> (forall u, u < samples h -> coefficient h u d = coefficient h' u d) -> filtered c h t d = filtered c h' t d.
Proof.
  intros c h h' t d S0 E. unfold filtered. apply csum_ext. intros i I. f_equal. rewrite <- S0. destruct (Nat.ltb_spec (t - i) (samples h)) as [A|A]; destruct (i <=? t); cbn [andb]; try reflexivity. apply E. exact A.
Qed.
(** Rectangular pulses *)
Lemma rectangular_characteristics : forall os, characteristics (rectangular os) = repeat (RtoC (/ INR os)) os.
Proof.
  intro os. unfold characteristics, rectangular. cbn [tx rx]. generalize (/ INR os)%R. intro r. induction os as [|k IH]; [reflexivity|]. cbn [repeat combine map fst snd]. f_equal; [ring|exact IH].
Qed.
Lemma filtered_flat_rectangular : forall os n g t, 0 < os -> t < n -> filtered (characteristics (rectangular os)) (constant n 1 (fun _ => g)) t 0 = (RtoC (INR (Nat.min os (t + 1)) / INR os) * g)%C.
Proof.
  intros os n g t O T. rewrite rectangular_characteristics. unfold filtered. rewrite repeat_length. cbn [coefficient samples constant].
  rewrite (csum_split _ (Nat.min os (t + 1)) (os - Nat.min os (t + 1)) os) by lia. rewrite (csum_ext _ (fun _ => (RtoC (/ INR os) * g)%C)).
  - rewrite csum_const. rewrite (csum_ext _ (fun _ => RtoC 0)), csum_0.
    + rewrite Cplus_0_r, Cmult_assoc. f_equal. rewrite <- RtoC_mult. reflexivity.
    + intros i I. destruct (Nat.leb_spec (Nat.min os (t + 1) + i) t); [lia|]. cbn [andb]. ring.
  - intros i I. unfold at0. rewrite nth_repeat' by lia. destruct (Nat.leb_spec i t); [|lia]. destruct (Nat.ltb_spec (t - i) n); [reflexivity|lia].
Qed.
