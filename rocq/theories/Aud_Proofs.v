(** Proofs about audio devices *)
From Coq Require Import List Reals Bool Arith ZArith Lia Lra.
From Coquelicot Require Import Complex.
From Verif Require Import Base BaseLemmas Cplx Cplx_Proofs Ofdm_Proofs Aud_Model Aud_Spec.
Import ListNotations.
Local Open Scope nat_scope.

Lemma length_cut : forall k x, length (cut_from k x) = length x.
Proof. intros k x. unfold cut_from. rewrite app_length, firstn_length, repeat_length. lia. Qed.
Lemma at0_cut : forall k x i, i < length x -> at0 (cut_from k x) i = if i <? k then at0 x i else RtoC 0.
Proof.
  intros k x i I. unfold at0, cut_from. destruct (Nat.ltb_spec i k) as [A|A].
  - rewrite app_nth1 by (rewrite firstn_length; lia). apply nth_firstn'. exact A.
  - rewrite app_nth2 by (rewrite firstn_length; lia). apply nth_repeat'. rewrite firstn_length. lia.
Qed.
Lemma lift_le : forall n, 1 <= n -> 1 <= lift n <= n.
Proof. intros n H. unfold lift. assert (A : n / 4 < n) by (apply Nat.div_lt; lia). lia. Qed.
Lemma at0_rolled_left : forall s (x : list C) i, i < length x -> s <= length x -> at0 (roll_left s x) i = at0 x ((i + s) mod length x).
Proof.
  intros s x i I S. unfold at0. rewrite nth_roll_left by assumption. destruct (Nat.ltb_spec i (length x - s)) as [A|A].
  - rewrite Nat.mod_small by lia. f_equal. lia.
  - replace (i + s) with ((i - (length x - s)) + 1 * length x) by lia. rewrite Nat.mod_add by lia. rewrite Nat.mod_small by lia. reflexivity.
Qed.
Lemma at0_rolled_right : forall s (x : list C) i, i < length x -> s <= length x -> at0 (roll_right s x) ((i + s) mod length x) = at0 x i.
Proof.
  intros s x i I S. unfold at0. rewrite rotate_roll, nth_rotate; [|apply Nat.mod_upper_bound; lia|exact S]. destruct (Nat.lt_ge_cases (i + s) (length x)) as [A|A].
  - rewrite Nat.mod_small by exact A. destruct (Nat.ltb_spec (i + s) s); [lia|]. f_equal. lia.
  - replace (i + s) with ((i + s - length x) + 1 * length x) by lia. rewrite Nat.mod_add by lia. rewrite Nat.mod_small by lia. destruct (Nat.ltb_spec (i + s - length x) s); [|lia]. f_equal. lia.
Qed.
(** The spectrum of the real part *)
Lemma conj_csum : forall f n, conj (csum f n) = csum (fun i => conj (f i)) n.
Proof. intros f n. induction n as [|n IH]; [apply conj_R|]. cbn [csum]. rewrite conj_plus, IH. reflexivity. Qed.
Lemma real_part : forall z : C, RtoC (fst z) = (RtoC (1 / 2) * (z + conj z))%C.
Proof. intros [a b]. apply C_ext; cbn; field. Qed.
Lemma fft_real_part : forall (x : list C) k, k < length x -> at0 (fft Backward (map (fun z : C => RtoC (fst z)) x)) k = (RtoC (1 / 2) * (at0 (fft Backward x) k + conj (at0 (fft Backward x) ((length x - k) mod length x))))%C.
Proof.
  intros x k K. set (n := length x) in *. assert (N0 : INR n <> 0%R) by (apply not_0_INR; lia).
  assert (F : forall (y : list C) j, j < length y -> at0 (fft Backward y) j = csum (fun i => at0 y i * cis (- turn (length y) j i))%C (length y)).
  { intros y j J. unfold fft. rewrite at0_tab by exact J. unfold fft_at. cbn [fft_scale]. ring. }
  rewrite (F x k K), (F x ((n - k) mod n)) by (apply Nat.mod_upper_bound; lia). rewrite F by (rewrite map_length; exact K). rewrite map_length. fold n. rewrite conj_csum, <- csum_plus, <- csum_scal. apply csum_ext. intros i I.
  unfold at0 at 1. rewrite (nth_map' (fun z : C => RtoC (fst z)) x (RtoC 0)) by exact I. fold (at0 x i). rewrite real_part, conj_mult, conj_cis.
  replace (cis (- - turn n ((n - k) mod n) i)) with (cis (- turn n k i)); [ring|]. rewrite Ropp_involutive. destruct (Nat.eq_dec k 0) as [->|Z].
  - rewrite Nat.sub_0_r, Nat.mod_same by lia. unfold turn. cbn [INR]. f_equal. field. exact N0.
  - rewrite Nat.mod_small by lia. replace (turn n (n - k) i) with (- turn n k i + 2 * PI * INR i)%R by (unfold turn; rewrite minus_INR by lia; field; exact N0). rewrite cis_add, cis_2PI_nat. ring.
Qed.
Lemma length_pressure_spectrum : forall s, length (pressure_spectrum s) = length s.
Proof. intro s. unfold pressure_spectrum. rewrite length_cut, length_roll_right, length_fft. reflexivity. Qed.
Lemma length_pressure : forall s, length (pressure s) = length s.
Proof. intro s. unfold pressure. rewrite map_length, length_ifft. apply length_pressure_spectrum. Qed.
Lemma on_air_lt : forall n j, 1 <= n -> on_air n j < n.
Proof. intros n j H. apply Nat.mod_upper_bound. lia. Qed.
Lemma on_air_lift : forall n j, on_air n j = (j + lift n) mod n.
Proof. intros n j. unfold on_air, lift. f_equal. lia. Qed.
Lemma at_pressure_spectrum : forall s j, j < length s -> at0 (pressure_spectrum s) (on_air (length s) j) = if on_air (length s) j <? length s / 2 then at0 (fft Backward s) j else RtoC 0.
Proof.
  intros s j J. unfold pressure_spectrum. rewrite at0_cut by (rewrite length_roll_right, length_fft; apply on_air_lt; lia). destruct (_ <? _); [|reflexivity]. rewrite on_air_lift.
  pose proof (at0_rolled_right (lift (length s)) (fft Backward s) j) as Q. rewrite length_fft in Q. apply Q; [exact J|apply lift_le; lia].
Qed.
(** The spectrum received from a channel recording what is played *)
Lemma loop_spectrum : forall s y j, received (pressure s) = Ok y -> j < length s -> length y = length s /\
  at0 (fft Backward y) j = if on_air (length s) j <? length s / 2 then if on_air (length s) j =? 0 then RtoC (2 * fst (at0 (fft Backward s) j)) else at0 (fft Backward s) j else RtoC 0.
Proof.
  intros s y j R J. unfold received in R. rewrite length_pressure in R. destruct (Nat.eqb_spec (length s) 0) as [Z|Z]; [lia|]. cbv zeta in R. assert (inj : forall a b : list C, Ok a = Ok b -> a = b) by congruence. apply inj in R. clear inj. subst y. set (n := length s) in *.
  assert (E : map RtoC (pressure s) = map (fun z : C => RtoC (fst z)) (ifft Backward (pressure_spectrum s))) by (unfold pressure; rewrite map_map; reflexivity).
  assert (Lf : length (fft Backward (map RtoC (pressure s))) = n) by (rewrite length_fft, map_length; apply length_pressure).
  split; [rewrite length_ifft, map_length, length_roll_left, length_cut; exact Lf|]. rewrite fft_ifft. set (T := cut_from (n / 2) (fft Backward (map RtoC (pressure s)))). assert (LT : length T = n) by (unfold T; rewrite length_cut; exact Lf).
  unfold at0 at 1. rewrite (nth_map' (Cmult (RtoC 2)) _ (RtoC 0)) by (rewrite length_roll_left, LT; exact J). fold (at0 (roll_left (lift n) T) j).
  assert (QT : at0 (roll_left (lift n) T) j = at0 T ((j + lift n) mod n)) by (pose proof (at0_rolled_left (lift n) T j) as Q; rewrite LT in Q; apply Q; [exact J|apply lift_le; lia]). rewrite QT, <- on_air_lift. set (k := on_air n j). assert (K : k < n) by (apply on_air_lt; lia).
  unfold T. rewrite at0_cut by (rewrite Lf; exact K). destruct (Nat.ltb_spec k (n / 2)) as [A|A]; [|apply C_ext; cbn; ring]. rewrite E, fft_real_part by (rewrite length_ifft, length_pressure_spectrum; exact K). rewrite fft_ifft, length_ifft, length_pressure_spectrum. fold n.
  assert (P := at_pressure_spectrum s j J). fold n in P. fold k in P. destruct (Nat.ltb_spec k (n / 2)); [|lia]. rewrite P. destruct (Nat.eqb_spec k 0) as [K0|K0].
  - rewrite K0, Nat.sub_0_r, Nat.mod_same by lia. rewrite K0 in P. rewrite P. destruct (at0 (fft Backward s) j) as [a b]. apply C_ext; cbn; field.
  - rewrite Nat.mod_small by lia. assert (Q : at0 (pressure_spectrum s) (n - k) = RtoC 0).
    { unfold pressure_spectrum. rewrite at0_cut by (rewrite length_roll_right, length_fft; fold n; lia). fold n. destruct (Nat.ltb_spec (n - k) (n / 2)); [|reflexivity]. assert (n / 2 * 2 <= n) by (rewrite Nat.mul_comm; apply Nat.mul_div_le; lia). lia. }
    rewrite Q. destruct (at0 (fft Backward s) j) as [a b]. apply C_ext; cbn; field.
Qed.
Lemma spectrum_determines : forall x y : list C, length x = length y -> (forall j, j < length x -> at0 (fft Backward x) j = at0 (fft Backward y) j) -> x = y.
Proof.
  intros x y L H. rewrite <- (ifft_fft Backward x), <- (ifft_fft Backward y). f_equal. apply nth_ext with (d := RtoC 0) (d' := RtoC 0); [rewrite !length_fft; exact L|]. intros i I. rewrite length_fft in I. apply H. exact I.
Qed.
Lemma received_pressure : forall s, length s <> 0 -> exists y, received (pressure s) = Ok y /\ length y = length s.
Proof.
  intros s L. unfold received. rewrite length_pressure. destruct (Nat.eqb_spec (length s) 0) as [Z|Z]; [contradiction|]. eexists. split; [reflexivity|].
  rewrite length_ifft, map_length, length_roll_left, length_cut, length_fft, map_length. apply length_pressure.
Qed.
Lemma loop_one : forall s, length s <> 0 -> (received (pressure s) = Ok s <-> fits s).
Proof.
  intros s L. destruct (received_pressure s L) as (y & E & Ly). split.
  - intros R j J A. destruct (loop_spectrum s s j R J) as [_ H]. unfold audible in A. destruct (Nat.ltb_spec (on_air (length s) j) (length s / 2)) as [B|B]; [|exact H]. destruct (Nat.eqb_spec (on_air (length s) j) 0) as [K|K]; [|lia].
    destruct (at0 (fft Backward s) j) as [a b]. apply (f_equal fst) in H as H1. apply (f_equal snd) in H as H2. cbn in H1, H2. apply C_ext; cbn; lra.
  - intro F. rewrite E. f_equal. apply spectrum_determines; [exact Ly|]. intros j J. rewrite Ly in J. destruct (loop_spectrum s y j E J) as [_ H]. rewrite H. specialize (F j J). unfold audible in F.
    destruct (Nat.ltb_spec (on_air (length s) j) (length s / 2)) as [B|B]; [|symmetry; apply F; lia]. destruct (Nat.eqb_spec (on_air (length s) j) 0) as [K|K]; [|reflexivity].
    rewrite F by lia. apply C_ext; cbn; ring.
Qed.
Lemma played_now : forall s, length s <> 0 -> played 0 s = Ok (pressure s).
Proof. intros s L. unfold played. destruct (Nat.eqb_spec (length s) 0); [contradiction|]. cbn [repeat]. rewrite app_nil_r. reflexivity. Qed.
Lemma loop_all : forall streams, List.Forall (fun s => length s <> 0) streams -> transmission 0 streams = Ok (map pressure streams).
Proof. intros streams H. apply mapM_ok_map. intros s I. rewrite List.Forall_forall in H. apply played_now. apply H. exact I. Qed.
Lemma loop_streams : forall streams, List.Forall (fun s => length s <> 0) streams -> (download (map pressure streams) = Ok streams <-> List.Forall fits streams).
Proof.
  intros streams H. unfold download. induction H as [|s l L H IH]; [split; [constructor|reflexivity]|]. cbn [map mapM]. destruct (received_pressure s L) as (y & E & Ly). assert (Q := loop_one s L). rewrite E in *. cbn [bind]. split.
  - intro D. destruct (mapM received (map pressure l)) as [m|e] eqn:M; cbn [bind] in D; [|discriminate]. injection D as -> ->. constructor; [apply Q; reflexivity|apply IH; reflexivity].
  - intro F. inversion F as [|a b F1 F2]; subst. apply Q in F1. apply IH in F2. rewrite F2. cbn [bind]. injection F1 as ->. reflexivity.
Qed.
(** Quarter turns *)
Lemma cis_right : cis (PI / 2) = Ci.
Proof. unfold cis. rewrite cos_PI2, sin_PI2. reflexivity. Qed.
Lemma quarter : forall k, cis (PI / 2 * INR (S k)) = (Ci * cis (PI / 2 * INR k))%C.
Proof. intro k. rewrite S_INR. replace (PI / 2 * (INR k + 1))%R with (PI / 2 + PI / 2 * INR k)%R by ring. rewrite cis_add, cis_right. reflexivity. Qed.
Lemma quarter_0 : cis (PI / 2 * INR 0) = RtoC 1.
Proof. cbn [INR]. rewrite Rmult_0_r. apply cis_0. Qed.
Lemma turn_4 : forall k i, turn 4 k i = (PI / 2 * INR (k * i))%R.
Proof. intros k i. unfold turn. rewrite mult_INR. replace (INR 4) with 4%R by (cbn; ring). field. Qed.
Lemma turn_8_even : forall k, turn 8 k 2 = (PI / 2 * INR k)%R.
Proof. intro k. unfold turn. replace (INR 8) with 8%R by (cbn; ring). cbn [INR]. field. Qed.
Lemma turn_8_even' : forall k, turn 8 2 k = (PI / 2 * INR k)%R.
Proof. intro k. unfold turn. replace (INR 8) with 8%R by (cbn; ring). cbn [INR]. field. Qed.

Definition tone : list C := ifft Backward [RtoC 0; RtoC 0; RtoC 0; RtoC 4].
Lemma tone_fits : fits tone.
Proof.
  intros j J A. unfold tone in *. rewrite length_ifft in *. rewrite fft_ifft. cbn [length] in *. unfold audible, on_air in A. cbn [Nat.div] in A.
  destruct j as [|[|[|[|j]]]]; try reflexivity; [exfalso; apply A; vm_compute; lia|lia].
Qed.
Lemma tone_pressure : pressure tone = [1; 0; -1; 0]%R.
Proof.
  unfold pressure, pressure_spectrum, tone. rewrite fft_ifft, length_ifft. change (cut_from (length [RtoC 0; RtoC 0; RtoC 0; RtoC 4] / 2) _) with [RtoC 0; RtoC 4; RtoC 0; RtoC 0].
  unfold ifft, tab, ifft_at, at0. cbn [length seq map nth csum ifft_scale]. rewrite !turn_4. cbn [Nat.mul Nat.add]. rewrite !quarter, quarter_0. replace (INR 4) with 4%R by (cbn; ring). repeat f_equal; cbn; field.
Qed.
Lemma tone_third : at0 tone 2 = RtoC (-1).
Proof.
  unfold tone, ifft. rewrite at0_tab by (cbn; lia). unfold ifft_at, at0. cbn [length nth csum ifft_scale]. rewrite !turn_4. cbn [Nat.mul Nat.add]. rewrite !quarter, quarter_0. replace (INR 4) with 4%R by (cbn; ring). apply C_ext; cbn; field.
Qed.
Lemma tone_delayed : exists y, received ([1; 0; -1; 0]%R ++ repeat 0%R 4) = Ok y /\ length y = 8 /\ at0 y 2 = (- Ci)%C.
Proof.
  unfold received. cbn [length app repeat Nat.eqb]. cbv zeta. eexists. split; [reflexivity|]. set (F := fft Backward (map RtoC [1; 0; -1; 0; 0; 0; 0; 0]%R)). assert (L : length F = 8) by (unfold F; rewrite length_fft; reflexivity).
  split; [rewrite length_ifft, map_length, length_roll_left, length_cut; exact L|].
  assert (V : forall k, k < 8 -> at0 F k = (RtoC 1 - conj (cis (PI / 2 * INR k)))%C).
  { intros k K. unfold F, fft. rewrite at0_tab by exact K. unfold fft_at, at0. cbn [map length nth csum fft_scale]. rewrite turn_8_even, <- (conj_cis (PI / 2 * INR k)). replace (turn 8 k 0) with 0%R by (unfold turn; cbn [INR]; field). rewrite Ropp_0, cis_0. generalize (conj (cis (PI / 2 * INR k))). intro c. destruct c as [a b]. 
    generalize (cis (- turn 8 k 1)) (cis (- turn 8 k 3)) (cis (- turn 8 k 4)) (cis (- turn 8 k 5)) (cis (- turn 8 k 6)) (cis (- turn 8 k 7)). intros c1 c3 c4 c5 c6 c7. apply C_ext; cbn; ring. }
  assert (E : F = map (at0 F) [0; 1; 2; 3; 4; 5; 6; 7]).
  { destruct F as [|f0 [|f1 [|f2 [|f3 [|f4 [|f5 [|f6 [|f7 [|f8 r]]]]]]]]]; try discriminate L. reflexivity. }
  rewrite E. change (roll_left _ _) with [at0 F 3; RtoC 0; RtoC 0; RtoC 0; RtoC 0; at0 F 0; at0 F 1; at0 F 2]. rewrite !V by lia.
  unfold ifft. rewrite at0_tab by (cbn; lia). unfold ifft_at, at0. cbn [map length nth csum ifft_scale]. rewrite !turn_8_even'. rewrite !quarter, quarter_0. replace (INR 8) with 8%R by (cbn; ring). apply C_ext; cbn; field.
Qed.
Lemma length_transmission : forall d streams t, transmission d streams = Ok t -> length t = length streams /\ forall i s, nth_error streams i = Some s -> exists p, nth_error t i = Some p /\ length p = length s + d.
Proof.
  intros d streams t T. split; [exact (mapM_length _ _ _ T)|]. intros i s I. destruct (mapM_nth _ _ _ T i s I) as (y & Y & N). exists y. split; [exact N|]. unfold played in Y. destruct (length s =? 0); [discriminate|]. injection Y as <-. rewrite app_length, length_pressure, repeat_length. reflexivity.
Qed.
