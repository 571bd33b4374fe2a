(** C83 - C85: frequency conversion, sources and linear blocks, noise. *)
From Coq Require Import List Reals Bool Arith ZArith Lia Lra Psatz.
From Coquelicot Require Import Complex.
From Verif Require Import Base BaseLemmas Cplx Cplx_Proofs Amp_Proofs Blk_Model Blk_Spec Blk_Proofs.
Import ListNotations.
Open Scope R_scope.

(** ** C83: frequency conversion *)
(** Mixers multiply their streams and add or subtract their frequencies; frequencies below zero are rejected *)
Theorem C83_mixer_up : forall x, well_formed x -> length (streams x) = 2%nat -> exists y, mixer Up x = Ok y /\ well_formed y /\ length (streams y) = 1%nat /\
  samples y = samples x /\ freqs y = [nth 0 (freqs x) 0 + nth 1 (freqs x) 0] /\ attribute_agrees y /\ forall n, value y 0 n = (value x 0 n * value x 1 n)%C.
Proof.
  intros x W L. destruct (streams x) as [|a [|b [|]]] eqn:S; try discriminate. destruct (two_frequencies x a b W S) as [f [g [p [q [Ef [Ep [Hf [Hg [La Lb]]]]]]]]].
  rewrite (mixer_eq Up x a b W S). rewrite Ef, Ep. cbn [nth]. unfold set_frequency. destruct (Rlt_dec (f + g) 0) as [?|?Hn]; [lra|]. eexists. split; [reflexivity|].
  split; [|split; [reflexivity|split; [reflexivity|split; [reflexivity|split; [reflexivity|]]]]].
  - destruct W as [_ [_ [_ [_ Fp]]]]. rewrite Ep in Fp. inversion Fp as [|u v Hp _]. wf.
    rewrite map_length, combine_length. lia.
  - intro n. unfold value. cbn [streams nth]. rewrite S. cbn [nth]. destruct (Nat.lt_ge_cases n (length a)) as [H|H].
    + apply (nth_products (fun z w => (z * w)%C)); [lia|exact H].
    + rewrite !nth_overflow by (rewrite ?map_length, ?combine_length; lia). ring.
Qed.
Print Assumptions C83_mixer_up.
Theorem C83_mixer_down : forall x, well_formed x -> length (streams x) = 2%nat ->
  (nth 0 (freqs x) 0 < nth 1 (freqs x) 0 -> mixer Down x = Raise ValueError) /\
  (nth 1 (freqs x) 0 <= nth 0 (freqs x) 0 -> exists y, mixer Down x = Ok y /\ well_formed y /\ length (streams y) = 1%nat /\ samples y = samples x /\
     freqs y = [nth 0 (freqs x) 0 - nth 1 (freqs x) 0] /\ attribute_agrees y /\ forall n, value y 0 n = (value x 0 n * conj (value x 1 n))%C).
Proof.
  intros x W L. destruct (streams x) as [|a [|b [|]]] eqn:S; try discriminate. destruct (two_frequencies x a b W S) as [f [g [p [q [Ef [Ep [Hf [Hg [La Lb]]]]]]]]].
  rewrite (mixer_eq Down x a b W S). rewrite Ef, Ep. cbn [nth]. unfold set_frequency. destruct (Rlt_dec (f - g) 0); (split; intro H; [try reflexivity; lra|]); [lra|].
  eexists. split; [reflexivity|]. split; [|split; [reflexivity|split; [reflexivity|split; [reflexivity|split; [reflexivity|]]]]].
  - destruct W as [_ [_ [_ [_ Fp]]]]. rewrite Ep in Fp. inversion Fp as [|u v Hp _]. wf.
    rewrite map_length, combine_length. lia.
  - intro k. unfold value. cbn [streams nth]. rewrite S. cbn [nth]. destruct (Nat.lt_ge_cases k (length a)) as [K|K].
    + apply (nth_products (fun z w => (z * conj w)%C)); [lia|exact K].
    + rewrite !nth_overflow by (rewrite ?map_length, ?combine_length; lia). ring.
Qed.
Print Assumptions C83_mixer_down.
Example C83_mixer_met : well_formed (beside [RtoC 1] [RtoC 2] 3 1 0 0 0 0) /\ length (streams (beside [RtoC 1] [RtoC 2] 3 1 0 0 0 0)) = 2%nat.
Proof. split; [|reflexivity]. wf. Qed.
(** Converting up and down with the same oscillator of constant amplitude is a multiplication by the square of the amplitude *)
Theorem C83_up_down : forall x lo f flo p plo c q y, length x = length lo -> 0 <= f -> 0 <= flo -> 0 <= p -> 0 <= plo ->
  mixer Up (beside x lo f flo p plo c q) = Ok y -> forall c' q' p', 0 <= p' ->
  exists z, mixer Down (beside (nth 0 (streams y) []) lo (nth 0 (freqs y) 0) flo p' plo c' q') = Ok z /\ freqs z = [f] /\
    forall n, (n < length x)%nat -> value z 0 n = (RtoC ((Cmod (nth n lo (RtoC 0))) ^ 2) * nth n x (RtoC 0))%C.
Proof.
  intros x lo f flo p plo c q y L Hf Hl Hp Hpl E c' q' p' P.
  assert (W : well_formed (beside x lo f flo p plo c q)) by wf.
  destruct (C83_mixer_up _ W eq_refl) as [y' [E' [Wy [Ly [Sy [Fy [_ Vy]]]]]]]. rewrite E in E'. injection E' as <-. cbn [freqs beside nth] in Fy. cbn [samples beside] in Sy.
  destruct (streams y) as [|r [|]] eqn:Ry; try discriminate. rewrite Fy. cbn [nth].
  assert (Lr : length r = length x). { destruct Wy as [_ [_ [Fr _]]]. rewrite Ry, Sy in Fr. inversion Fr as [|u v A _]. exact A. }
  assert (W' : well_formed (beside r lo (f + flo) flo p' plo c' q')) by wf.
  destruct (C83_mixer_down _ W' eq_refl) as [_ D]. cbn [freqs beside nth] in D. destruct (D ltac:(lra)) as [z [Ez [Wz [Lz [Sz [Fz [_ Vz]]]]]]].
  exists z. split; [exact Ez|]. split; [rewrite Fz; f_equal; lra|]. intros n Hn. rewrite Vz. unfold value at 1 2. cbn [streams beside nth].
  specialize (Vy n). unfold value in Vy. rewrite Ry in Vy. cbn [streams beside nth] in Vy. rewrite Vy.
  rewrite <- conj_times'. ring.
Qed.
Print Assumptions C83_up_down.
Example C83_up_down_met : exists y, mixer Up (beside [RtoC 1] [cis 1] 3 1 0 0 0 0) = Ok y.
Proof.
  assert (W : well_formed (beside [RtoC 1] [cis 1] 3 1 0 0 0 0)) by wf.
  destruct (C83_mixer_up _ W eq_refl) as [y [E _]]. exists y. exact E.
Qed.
(** Ideal mixers keep the samples and move the frequency by that of the oscillator *)
Theorem C83_ideal_mixer : forall d lo x, well_formed x -> length (streams x) = 1%nat -> exists y, ideal_mixer d lo x = Ok y /\ well_formed y /\ streams y = streams x /\
  samples y = samples x /\ freqs y = [Rabs (match d with Up => nth 0 (freqs x) 0 + lo | Down => nth 0 (freqs x) 0 - lo end)] /\ attribute_agrees y.
Proof.
  intros d lo x W L. destruct (streams x) as [|a [|]] eqn:S; try discriminate. destruct (ideal_eq d lo x a W S) as [f [p [Ef [Ep E]]]]. rewrite E. eexists. split; [reflexivity|].
  rewrite Ef. cbn [nth streams samples freqs]. split; [|split; [reflexivity|split; [reflexivity|split; [destruct d; reflexivity|reflexivity]]]].
  destruct W as [_ [_ [Fr [_ Fp]]]]. rewrite S in Fr. rewrite Ep in Fp. inversion Fr as [|u v Lr _]. inversion Fp as [|u' v' Hp _]. wf. destruct d; apply Rabs_pos.
Qed.
Print Assumptions C83_ideal_mixer.
Theorem C83_ideal_up_down : forall lo x y z, 0 <= lo -> well_formed x -> length (streams x) = 1%nat -> ideal_mixer Up lo x = Ok y -> ideal_mixer Down lo y = Ok z -> streams z = streams x /\ freqs z = freqs x.
Proof.
  intros lo x y z Hl W L E1 E2. destruct (C83_ideal_mixer Up lo x W L) as [y' [E1' [Wy [Sy [_ [Fy _]]]]]]. rewrite E1 in E1'. injection E1' as <-.
  destruct (C83_ideal_mixer Down lo y Wy ltac:(rewrite Sy; exact L)) as [z' [E2' [Wz [Sz [_ [Fz _]]]]]]. rewrite E2 in E2'. injection E2' as <-.
  split; [congruence|]. rewrite Fz, Fy. cbn [nth]. destruct W as [Lf [_ [_ [Ff _]]]]. rewrite L in Lf. destruct (freqs x) as [|f [|]]; try discriminate. inversion Ff as [|u v Hf _]. cbn [nth].
  f_equal. rewrite (Rabs_pos_eq (f + lo)) by lra. replace (f + lo - lo) with f by lra. apply Rabs_pos_eq. exact Hf.
Qed.
Print Assumptions C83_ideal_up_down.
Example C83_ideal_up_down_met : well_formed (single [RtoC 1; RtoC 2] 5 0) /\ exists y, ideal_mixer Up 3 (single [RtoC 1; RtoC 2] 5 0) = Ok y /\ exists z, ideal_mixer Down 3 y = Ok z.
Proof.
  assert (W : well_formed (single [RtoC 1; RtoC 2] 5 0)) by wf. split; [exact W|].
  destruct (C83_ideal_mixer Up 3 _ W eq_refl) as [y [E [Wy [Sy _]]]]. exists y. split; [exact E|]. destruct (C83_ideal_mixer Down 3 y Wy ltac:(rewrite Sy; reflexivity)) as [z [Ez _]]. exists z. exact Ez.
Qed.
(** The other order recovers frequencies at or above the oscillator *)
Theorem C83_ideal_down_up : forall lo x y z, 0 <= lo -> well_formed x -> length (streams x) = 1%nat -> lo <= nth 0 (freqs x) 0 -> ideal_mixer Down lo x = Ok y -> ideal_mixer Up lo y = Ok z -> streams z = streams x /\ freqs z = freqs x.
Proof.
  intros lo x y z Hl W L Hh E1 E2. destruct (C83_ideal_mixer Down lo x W L) as [y' [E1' [Wy [Sy [_ [Fy _]]]]]]. rewrite E1 in E1'. injection E1' as <-.
  destruct (C83_ideal_mixer Up lo y Wy ltac:(rewrite Sy; exact L)) as [z' [E2' [Wz [Sz [_ [Fz _]]]]]]. rewrite E2 in E2'. injection E2' as <-.
  split; [congruence|]. rewrite Fz, Fy. cbn [nth]. destruct W as [Lf [_ [_ [Ff _]]]]. rewrite L in Lf. destruct (freqs x) as [|f [|]]; try discriminate. cbn [nth] in *.
  f_equal. rewrite (Rabs_pos_eq (f - lo)) by lra. rewrite Rabs_pos_eq by lra. lra.
Qed.
Print Assumptions C83_ideal_down_up.
(** and no others: lower frequencies are mirrored *)
Theorem C83_ideal_mirror_refuted : ~ (forall lo x y z, 0 <= lo -> well_formed x -> length (streams x) = 1%nat -> ideal_mixer Down lo x = Ok y -> ideal_mixer Up lo y = Ok z -> freqs z = freqs x).
Proof.
  intro H. assert (W : well_formed (single [RtoC 1] 1 0)) by wf.
  destruct (C83_ideal_mixer Down 3 _ W eq_refl) as [y [E [Wy [Sy [_ [Fy _]]]]]]. destruct (C83_ideal_mixer Up 3 y Wy ltac:(rewrite Sy; reflexivity)) as [z [Ez [_ [_ [_ [Fz _]]]]]].
  specialize (H 3 _ y z ltac:(lra) W eq_refl E Ez). rewrite Fz, Fy in H. cbn [nth freqs single] in H. injection H as H. rewrite (Rabs_left (1 - 3)) in H by lra. rewrite Rabs_pos_eq in H by lra. lra.
Qed.
Print Assumptions C83_ideal_mirror_refuted.
(** Quadruplers *)
Theorem C83_x4 : forall x, well_formed x -> exists y, x4 x = Ok y /\ well_formed y /\ streams y = streams x /\ freqs y = map (fun f => 4 * f) (freqs x).
Proof.
  intros x W. unfold x4. rewrite copy_ok by exact W. cbn [bind]. eexists. split; [reflexivity|]. cbn [streams freqs powers samples].
  destruct W as [Lf [Lp [Fr [Ff Fp]]]]. split; [|split; [reflexivity|apply map_ext; intro; ring]].
  repeat split; cbn [streams freqs powers samples]; try assumption; [rewrite map_length; exact Lf|]. apply Forall_map. eapply Forall_impl; [|exact Ff]. cbn beta. intros f Hf. lra.
Qed.
Print Assumptions C83_x4.
Example C83_x4_met : well_formed (single [RtoC 1] 1 0).
Proof. wf. Qed.
(** Their outputs, and those of sources, still report another carrier frequency than that of their stream *)
Theorem C83_attribute_refuted : ~ (forall x y, well_formed x -> attribute_agrees x -> x4 x = Ok y -> attribute_agrees y) /\
  ~ (forall a own device n y, source a own device None n = Ok y -> attribute_agrees y).
Proof.
  split; intro H.
  - assert (W : well_formed (single [RtoC 1] 1 0)) by wf. specialize (H (single [RtoC 1] 1 0)).
    unfold x4 in H. rewrite copy_ok in H by exact W. cbn [bind] in H. specialize (H _ W eq_refl eq_refl). unfold attribute_agrees in H. cbn in H. lra.
  - specialize (H 1 2 0 1%nat _ eq_refl). unfold attribute_agrees in H. cbn in H. unfold oscillator in H. destruct (Rlt_dec 0 2); lra.
Qed.
Print Assumptions C83_attribute_refuted.

(** ** C84: linear blocks, sources and ramps *)
Theorem C84_sum : forall x, well_formed x -> (0 < length (streams x))%nat -> exists y, sum_block x = Ok y /\ well_formed y /\ length (streams y) = 1%nat /\ samples y = samples x /\
  freqs y = [nth 0 (freqs x) 0] /\ forall n, value y 0 n = csum (fun i => value x i n) (length (streams x)).
Proof.
  intros x W P. pose proof W as [Lf [Lp [Fr [Ff Fp]]]]. unfold sum_block. rewrite derive_ok by (cbn [length]; lia). eexists. split; [reflexivity|]. cbn [length streams samples freqs].
  unfold add_rows. destruct (add_rows_from (samples x) (streams x) (repeat (RtoC 0) (samples x)) (repeat_length _ _) Fr) as [L V].
  destruct (freqs x) as [|f fs]; [cbn in Lf; lia|]. destruct (powers x) as [|p ps]; [cbn in Lp; lia|]. inversion Ff as [|u v Hf _]. inversion Fp as [|u' v' Hp _]. cbn [firstn nth].
  split; [wf|]. split; [reflexivity|]. split; [reflexivity|]. split; [reflexivity|].
  intro n. unfold value. cbn [streams nth]. destruct (Nat.lt_ge_cases n (samples x)) as [Hn|Hn].
  - rewrite V by exact Hn. rewrite nth_repeat_zero. ring.
  - rewrite nth_overflow by lia. rewrite (csum_ext _ (fun _ => RtoC 0)); [symmetry; apply csum_0|]. intros i Hi. apply nth_overflow.
    rewrite Forall_forall in Fr. rewrite (Fr (nth i (streams x) [])) by (apply nth_In; exact Hi). exact Hn.
Qed.
Print Assumptions C84_sum.
Example C84_sum_met : well_formed (beside [RtoC 1] [RtoC 2] 3 1 0 0 0 0) /\ (0 < length (streams (beside [RtoC 1] [RtoC 2] 3 1 0 0 0 0)))%nat.
Proof. split; [wf|cbn; lia]. Qed.
(** Streams at different frequencies are summed like streams at the same frequency *)
Theorem C84_sum_frequencies_refuted : ~ (forall x y, well_formed x -> sum_block x = Ok y -> Forall (fun f => f = nth 0 (freqs y) 0) (freqs x)).
Proof.
  intro H. specialize (H (beside [RtoC 1] [RtoC 2] 3 1 0 0 0 0) _ ltac:(wf) eq_refl). cbn in H. inversion H as [|u v _ F]. inversion F as [|u' v' E _]. lra.
Qed.
Print Assumptions C84_sum_frequencies_refuted.
(** Splitting to a single output is the identity; more outputs cannot be computed *)
Theorem C84_split : forall x k, well_formed x -> length (streams x) = 1%nat ->
  (k = 1%nat -> exists y, split_block k x = Ok y /\ streams y = streams x /\ freqs y = freqs x) /\ ((2 <= k)%nat -> split_block k x = Raise ValueError).
Proof.
  intros x k W L. destruct (streams x) as [|a [|]] eqn:S; try discriminate. destruct (one_stream x a W S) as [f [p [Ef [Ep _]]]].
  unfold split_block. rewrite (stream_ok x 0 a W) by (rewrite S; reflexivity). cbn [bind streams nth]. rewrite Ef, Ep. cbn [nth]. split; intro H.
  - subst k. eexists. split; [reflexivity|]. split; reflexivity.
  - unfold derive. cbn [freqs]. rewrite repeat_length. destruct k as [|[|k]]; try lia. reflexivity.
Qed.
Print Assumptions C84_split.
Theorem C84_split_copies_refuted : ~ (forall x k, well_formed x -> length (streams x) = 1%nat -> (0 < k)%nat -> exists y, split_block k x = Ok y).
Proof.
  intro H. assert (W : well_formed (single [RtoC 1] 1 0)) by wf. destruct (H _ 2%nat W eq_refl ltac:(lia)) as [y E].
  rewrite (proj2 (C84_split _ 2 W eq_refl)) in E by lia. discriminate.
Qed.
Print Assumptions C84_split_copies_refuted.
(** Phase shifters rotate every sample and keep amplitudes *)
Theorem C84_shift : forall x phase bits, well_formed x -> exists y, shift phase bits x = Ok y /\ well_formed y /\ length (streams y) = length (streams x) /\ freqs y = freqs x /\
  forall i n, value y i n = (value x i n * cis phase)%C /\ Cmod (value y i n) = Cmod (value x i n).
Proof.
  intros x phase bits W. unfold shift. rewrite derive_same by (try exact W; apply map_length). eexists. split; [reflexivity|]. destruct W as [Lf [Lp [Fr [Ff Fp]]]].
  split; [|split; [cbn [streams]; apply map_length|split; [reflexivity|]]].
  - repeat split; cbn [streams samples freqs powers]; rewrite ?map_length; try assumption. apply Forall_map. eapply Forall_impl; [|exact Fr]. cbn beta. intros r Hr. rewrite map_length. exact Hr.
  - intros i n. assert (E : value (Rf (map (map (fun z : C => (z * cis phase)%C)) (streams x)) (samples x) (freqs x) (powers x) (cf x) (np x)) i n = (value x i n * cis phase)%C).
    { unfold value. cbn [streams]. change (@nil C) with (map (fun z : C => (z * cis phase)%C) []) at 1. rewrite map_nth. destruct (Nat.lt_ge_cases n (length (nth i (streams x) []))) as [H|H].
      - apply (nth_map_lt (fun z : C => (z * cis phase)%C)). exact H.
      - rewrite !nth_overflow by (rewrite ?map_length; exact H). ring. }
    rewrite E. split; [reflexivity|]. rewrite Cmod_mult, Cmod_cis. ring.
Qed.
Print Assumptions C84_shift.
(** The configured resolution of the phase has no effect: one bit does not restrict the phase to two values *)
Theorem C84_shift_quantization_refuted : ~ (forall phase x y, well_formed x -> shift phase 1 x = Ok y -> forall i n, value y i n = value x i n \/ value y i n = (- value x i n)%C).
Proof.
  intro H. assert (W : well_formed (single [RtoC 1] 1 0)) by wf. destruct (C84_shift _ (PI / 2) 1 W) as [y [E [_ [_ [_ V]]]]].
  specialize (H (PI / 2) _ y W E 0%nat 0%nat). rewrite (proj1 (V 0%nat 0%nat)) in H. cbn [value single streams nth] in H. unfold cis in H. rewrite cos_PI2, sin_PI2 in H.
  unfold value, single in H. cbn [streams nth] in H. destruct H as [H|H]; apply (f_equal snd) in H; cbn in H; lra.
Qed.
Print Assumptions C84_shift_quantization_refuted.
(** Sources: constant amplitude at their own or the device's frequency, whatever the phase noise *)
Theorem C84_source : forall a own device pn n, 0 <= a -> 0 <= own -> 0 <= device -> exists y, source a own device pn n = Ok y /\ well_formed y /\ length (streams y) = 1%nat /\ samples y = n /\
  freqs y = [if Rlt_dec 0 own then own else device] /\ (forall k, (k < n)%nat -> Cmod (value y 0 k) = a) /\ (pn = None -> forall k, (k < n)%nat -> value y 0 k = RtoC a).
Proof.
  intros a own device pn n Ha Ho Hd. unfold source. set (x := Rf [repeat (RtoC a) n] n [oscillator own device] [0] 0 0).
  assert (W : well_formed x). { unfold x. wf; [apply repeat_length|]. unfold oscillator. destruct (Rlt_dec 0 own); assumption. }
  assert (V : forall k, (k < n)%nat -> value x 0 k = RtoC a). { intros k Hk. unfold value, x. cbn [streams nth]. rewrite (nth_indep _ _ (RtoC a)) by (rewrite repeat_length; exact Hk). apply nth_repeat. }
  assert (Mx : forall k, (k < n)%nat -> Cmod (value x 0 k) = a) by (intros k Hk; rewrite V by exact Hk; rewrite Cmod_R; apply Rabs_pos_eq; exact Ha).
  assert (Id : phase_noise pn x = Ok x -> exists y, phase_noise pn x = Ok y /\ well_formed y /\ length (streams y) = 1%nat /\ samples y = n /\
    freqs y = [if Rlt_dec 0 own then own else device] /\ (forall k, (k < n)%nat -> Cmod (value y 0 k) = a) /\ (pn = None -> forall k, (k < n)%nat -> value y 0 k = RtoC a)).
  { intro E. exists x. split; [exact E|]. split; [exact W|]. split; [reflexivity|]. split; [reflexivity|]. split; [reflexivity|]. split; [exact Mx|intros _; exact V]. }
  destruct pn as [phi|]; [|apply Id; reflexivity]. cbn [phase_noise]. destruct ((length (streams x) =? 0)%nat || (samples x =? 0)%nat) eqn:Z; [cbn [phase_noise] in Id; rewrite Z in Id; apply Id; reflexivity|].
  rewrite derive_same by (try exact W; apply length_numbered). clear Id.
  eexists. split; [reflexivity|]. split; [|split; [reflexivity|split; [reflexivity|split; [reflexivity|split; [|discriminate]]]]].
  - destruct W as [Lf [Lp [_ [Ff Fp]]]]. repeat split; cbn [streams samples freqs powers]; try assumption. unfold x. cbn [streams length seq combine map fst snd samples]. apply Forall_cons; [|apply Forall_nil].
    rewrite (@length_numbered C C), repeat_length. reflexivity.
  - intros k Hk. unfold value, x. cbn [streams length seq combine map fst snd nth]. rewrite (nth_numbered (fun m z => z * cis (phi 0%nat m))%C _ _ _ (RtoC 0)) by (rewrite repeat_length; exact Hk).
    rewrite Cmod_mult, Cmod_cis. specialize (Mx k Hk). unfold value, x in Mx. cbn [streams nth] in Mx. rewrite Mx. ring.
Qed.
Print Assumptions C84_source.
Example C84_source_met : 0 <= 2 /\ 0 <= 0 /\ 0 <= 5.
Proof. lra. Qed.
(** Rising ramps: [chirps] equal intervals of [N] samples, the first [K] of each have amplitude one, the others are silent; from sample to sample
    the signal turns at a frequency that rises linearly and stays within half the bandwidth on both sides of the carrier *)
Theorem C84_ramp : forall rate bw slope interval chirps N K, 0 < rate -> 0 < bw -> 0 < slope -> 0 < interval ->
  INR N <= interval * rate < INR N + 1 -> INR K <= bw / slope * rate < INR K + 1 ->
  exists y, ramp rate bw slope interval chirps = Ok y /\ length (streams y) = 1%nat /\ length (nth 0 (streams y) []) = (chirps * N)%nat /\
  forall i n, (i < chirps)%nat -> (n < N)%nat ->
    ((n < K)%nat -> Cmod (value y 0 (i * N + n)) = 1) /\ ((K <= n)%nat -> value y 0 (i * N + n) = RtoC 0) /\
    ((S n < N)%nat -> (S n < K)%nat -> exists f, value y 0 (i * N + S n) = (value y 0 (i * N + n) * cis (2 * PI * f / rate))%C /\
       f = - bw / 2 + slope * ((INR n + / 2) / rate) /\ - bw / 2 <= f <= bw / 2).
Proof.
  intros rate bw slope interval chirps N K Hr Hb Hs Hi HN HK. destruct (chirp_eq rate bw slope interval Hr Hb Hs Hi) as [g [k [Bg [Bk E]]]].
  rewrite (floor_unique g N _ Bg HN), (floor_unique k K _ Bk HK) in E. clear g k Bg Bk. unfold ramp. rewrite E. cbn [bind].
  set (c := map _ _ ++ repeat _ _). assert (Lc : length c = N) by (unfold c; rewrite app_length, map_length, seq_length, repeat_length; lia).
  eexists. split; [reflexivity|]. cbn [streams length nth]. split; [reflexivity|]. split; [rewrite length_concat_repeat, Lc; reflexivity|].
  assert (V : forall i n, (i < chirps)%nat -> (n < N)%nat -> value (Rf [concat (repeat c chirps)] (length (concat (repeat c chirps))) [0] [0] 0 0) 0 (i * N + n) = nth n c (RtoC 0)).
  { intros i n Hc Hn. unfold value. cbn [streams nth]. rewrite <- Lc. apply nth_concat_repeat; lia. }
  assert (A : forall n, (n < N)%nat -> (n < K)%nat -> nth n c (RtoC 0) = cis (PI * (- bw * (INR n / rate) + slope * (INR n / rate) ^ 2))).
  { intros n H1 H2. unfold c. rewrite app_nth1 by (rewrite map_length, seq_length; lia). rewrite nth_seqmap by lia. reflexivity. }
  intros i n Hc Hn. split; [|split].
  - intro Hk. rewrite V, A by assumption. apply Cmod_cis.
  - intro Hk. rewrite V by assumption. unfold c. rewrite app_nth2 by (rewrite map_length, seq_length; lia). apply nth_repeat_zero.
  - intros Hs1 Hk. exists (- bw / 2 + slope * ((INR n + / 2) / rate)). rewrite !V, !A by lia. split; [|split; [reflexivity|]].
    + rewrite <- cis_add. f_equal. rewrite S_INR. field. lra.
    + assert (P : 0 <= (INR n + / 2) / rate) by (apply Rmult_le_pos; [pose proof (pos_INR n); lra|apply Rlt_le, Rinv_0_lt_compat; exact Hr]).
      assert (Q : (INR n + / 2) / rate <= bw / slope).
      { apply (Rmult_le_reg_r rate); [exact Hr|]. replace ((INR n + / 2) / rate * rate) with (INR n + / 2) by (field; lra). apply Rle_trans with (INR K); [|lra].
        assert (INR (S n) <= INR K) by (apply le_INR; lia). rewrite S_INR in H. lra. }
      assert (T : slope * ((INR n + / 2) / rate) <= bw). { apply Rle_trans with (slope * (bw / slope)); [apply Rmult_le_compat_l; lra|]. right. field. lra. }
      assert (0 <= slope * ((INR n + / 2) / rate)) by (apply Rmult_le_pos; lra). lra.
Qed.
Print Assumptions C84_ramp.
Example C84_ramp_met : 0 < 10 /\ INR 5 <= / 2 * 10 < INR 5 + 1 /\ INR 4 <= 2 / 5 * 10 < INR 4 + 1.
Proof. cbn [INR]. lra. Qed.
(** Falling ramps are accepted, but never transmitted: every generated frame is silent, or none is generated *)
Theorem C84_falling_ramp_silent : forall rate bw slope interval chirps y, 0 < rate -> 0 < bw -> slope < 0 -> 0 < interval ->
  ramp rate bw slope interval chirps = Ok y -> forall i n, value y i n = RtoC 0.
Proof.
  intros rate bw slope interval chirps y Hr Hb Hs Hi E i n. unfold ramp in E. destruct (chirp rate bw slope interval) as [c|] eqn:Ec; [|discriminate]. cbn [bind] in E. injection E as <-.
  assert (Z : exists m, c = repeat (RtoC 0) m).
  { unfold chirp in Ec. destruct (Req_EM_T slope 0); [lra|].
    assert (T : (truncate (bw / slope * rate) <= 0)%Z).
    { unfold truncate. assert (Neg : bw / slope * rate < 0). { assert (/ slope < 0) by (apply Rinv_lt_0_compat; exact Hs). assert (bw * / slope < 0) by nra. unfold Rdiv. nra. }
      destruct (Rle_dec 0 (bw / slope * rate)); [lra|]. destruct (base_Int_part (- (bw / slope * rate))) as [_ H].
      assert (IZR (-1) < IZR (Int_part (- (bw / slope * rate)))) by (cbn; lra). apply lt_IZR in H0. lia. }
    destruct (Z.leb_spec 0 (Z.min (truncate (interval * rate)) (truncate (bw / slope * rate)))) as [H|H].
    - injection Ec as <-. replace (Z.to_nat (Z.min (truncate (interval * rate)) (truncate (bw / slope * rate)))) with 0%nat by lia. cbn [seq map app]. eexists. reflexivity.
    - destruct (_ <=? 0)%Z; [|discriminate]. injection Ec as <-. eexists. reflexivity. }
  destruct Z as [m ->]. unfold value. cbn [streams]. destruct i as [|i]; [|destruct i; cbn [nth]; destruct n; reflexivity]. cbn [nth].
  assert (R : forall k, concat (repeat (repeat (RtoC 0) m) k) = repeat (RtoC 0) (k * m)).
  { induction k as [|k IH]; cbn [repeat concat Nat.mul]; [reflexivity|]. rewrite IH. symmetry. apply repeat_app. }
  rewrite R. apply nth_repeat_zero.
Qed.
Print Assumptions C84_falling_ramp_silent.
Theorem C84_falling_ramp_refuted : ~ (forall rate bw slope interval, 0 < rate -> 0 < bw -> slope <> 0 -> 0 < interval -> exists y, ramp rate bw slope interval 1 = Ok y) /\
  ramp 1 1 0 1 1 = Raise ZeroDivisionError.
Proof.
  assert (T : forall n x, INR n <= x < INR n + 1 -> truncate x = Z.of_nat n).
  { intros n x H. destruct (truncate_floor x) as [m [E B]]; [pose proof (pos_INR n); lra|]. rewrite E. f_equal. exact (floor_unique _ _ _ B H). }
  split.
  - intro H. destruct (H 1 1 (-1) 3 ltac:(lra) ltac:(lra) ltac:(lra) ltac:(lra)) as [y E]. unfold ramp, chirp in E. destruct (Req_EM_T (-1) 0); [lra|].
    rewrite (T 3%nat (3 * 1)) in E by (cbn [INR]; lra). unfold truncate in E. destruct (Rle_dec 0 (1 / -1 * 1)) as [L|L]; [lra|].
    replace (- (1 / -1 * 1)) with (IZR 1) in E by (cbn; lra).
    assert (I : Int_part (IZR 1) = 1%Z). { destruct (base_Int_part (IZR 1)) as [H1 H2]. apply le_IZR in H1. assert (IZR 0 < IZR (Int_part (IZR 1))) by (cbn in *; lra). apply lt_IZR in H0. lia. }
    rewrite I in E. discriminate.
  - unfold ramp, chirp. destruct (Req_EM_T 0 0); [reflexivity|lra].
Qed.
Print Assumptions C84_falling_ramp_refuted.

(** ** C85: noise *)
(** Levels are never negative, and thermal noise and noise densities grow with the bandwidth *)
Theorem C85_levels : forall l b, level_ok l = true -> 0 <= b -> (forall s r c, l = Snr s r c -> 0 <= r /\ 0 <= c) ->
  0 <= power_of l b /\ (forall k, 0 <= k -> match l with Snr _ _ _ => power_of l (k * b) = power_of l b | _ => power_of l (k * b) = k * power_of l b end).
Proof.
  intros l b V Hb Hs. assert (B : 0 < boltzmann) by (unfold boltzmann; apply Rdiv_lt_0_compat; [lra|apply pow_lt; lra]).
  destruct l as [t|p|s r c]; cbn [level_ok power_of] in *.
  - destruct (Rlt_dec t 0); [discriminate|]. split; [|intros; ring]. repeat apply Rmult_le_pos; lra.
  - destruct (Rlt_dec p 0); [discriminate|]. split; [apply Rmult_le_pos; lra|intros; ring].
  - destruct (Rle_dec s 0); [discriminate|]. destruct (Hs s r c eq_refl). split; [|reflexivity].
    apply Rmult_le_pos; [|assumption]. apply Rmult_le_pos; [assumption|]. apply Rlt_le, Rinv_0_lt_compat. lra.
Qed.
Print Assumptions C85_levels.
Example C85_levels_met : level_ok (Snr 2 1 1) = true /\ level_ok (Thermal 290) = true.
Proof. cbn. destruct (Rle_dec 2 0); [lra|]. destruct (Rlt_dec 290 0); [lra|]. split; reflexivity. Qed.
(** The ratio of the reference power, scaled by the channel, and the noise power is the configured one, and only the latest channel sample counts *)
Theorem C85_snr : forall s r c b scales, 0 < s -> 0 < r -> 0 < last scales c -> r * last scales c / power_of (fold_left observe scales (Snr s r c)) b = s.
Proof.
  intros s r c b scales Hs Hr Hc. assert (E : fold_left observe scales (Snr s r c) = Snr s r (last scales c)).
  { clear Hc. revert c. induction scales as [|x l IH]; intro c; [reflexivity|]. cbn [fold_left observe]. rewrite IH. f_equal. destruct l; [reflexivity|]. cbn [last]. clear IH. revert r0. induction l as [|y l IHl]; intro z; [reflexivity|]. apply (IHl y). }
  rewrite E. cbn [power_of]. field. lra.
Qed.
Print Assumptions C85_snr.
Example C85_snr_met : 0 < 10 /\ 0 < 1 /\ 0 < last [1; / 2] 1.
Proof. cbn. lra. Qed.
(** Noise of a realization does not depend on the signal it is added to, and is proportional to the square root of the power *)
Theorem C85_noise : forall power unit x, well_formed x -> 0 <= power -> exists y, awgn power unit x = Ok y /\ well_formed y /\ length (streams y) = length (streams x) /\ freqs y = freqs x /\
  (forall i n, (i < length (streams x))%nat -> (n < samples x)%nat -> value y i n = (value x i n + RtoC (sqrt (power / 2)) * unit i n)%C) /\ (0 < power -> np y = power) /\ (power = 0 -> y = x).
Proof.
  intros power unit x W P. unfold awgn. destruct (Rlt_dec power 0) as [?|Np]; [lra|]. destruct (Req_EM_T power 0) as [Z|Z].
  - exists x. split; [reflexivity|]. split; [exact W|]. split; [reflexivity|]. split; [reflexivity|]. split; [|split; [lra|reflexivity]]. intros i n _ _. rewrite Z. replace (0 / 2) with 0 by lra. rewrite sqrt_0. ring.
  - rewrite copy_ok by exact W. cbn [bind streams samples freqs powers cf]. eexists. split; [reflexivity|]. pose proof W as [Lf [Lp [Fr [Ff Fp]]]].
    split; [|split; [cbn [streams]; apply length_numbered|split; [reflexivity|split; [|split; [reflexivity|lra]]]]].
    + repeat split; cbn [streams samples freqs powers]; rewrite ?length_numbered; try assumption. apply Forall_map. apply Forall_forall. intros [i r] Hin. cbn [fst snd]. rewrite length_numbered.
      apply in_combine_r in Hin. rewrite Forall_forall in Fr. exact (Fr r Hin).
    + intros i n Hi Hn. unfold value. cbn [streams].
      rewrite (nth_numbered (fun i r => map (fun q => snd q + RtoC (sqrt (power / 2)) * unit i (fst q))%C (combine (seq 0 (length r)) r)) _ _ _ []) by exact Hi.
      assert (Hr : length (nth i (streams x) []) = samples x) by (rewrite Forall_forall in Fr; apply Fr, nth_In; exact Hi).
      rewrite (nth_numbered (fun n z => z + RtoC (sqrt (power / 2)) * unit i n)%C _ _ _ (RtoC 0)) by lia. reflexivity.
Qed.
Print Assumptions C85_noise.
Example C85_noise_met : well_formed (single [RtoC 1] 1 0) /\ 0 <= 2.
Proof. split; [wf|lra]. Qed.
(** In consequence two signals keep their difference under the same realization *)
Theorem C85_noise_cancels : forall power unit x y x' y', well_formed x -> well_formed y -> 0 <= power -> length (streams x) = length (streams y) -> samples x = samples y ->
  awgn power unit x = Ok x' -> awgn power unit y = Ok y' -> forall i n, (i < length (streams x))%nat -> (n < samples x)%nat -> (value x' i n - value y' i n)%C = (value x i n - value y i n)%C.
Proof.
  intros power unit x y x' y' Wx Wy P Ls Ln Ex Ey i n Hi Hn. destruct (C85_noise power unit x Wx P) as [a [Ea [_ [_ [_ [Va _]]]]]]. destruct (C85_noise power unit y Wy P) as [b [Eb [_ [_ [_ [Vb _]]]]]].
  rewrite Ex in Ea. injection Ea as <-. rewrite Ey in Eb. injection Eb as <-. rewrite Va, Vb by lia. ring.
Qed.
Print Assumptions C85_noise_cancels.
Theorem C85_negative_power : forall power unit x, power < 0 -> awgn power unit x = Raise ValueError.
Proof. intros power unit x H. unfold awgn. destruct (Rlt_dec power 0); [reflexivity|lra]. Qed.
Print Assumptions C85_negative_power.
(** The noise power a signal reports is that of the latest noisy block, not the sum of all, and it is forgotten when a later block copies the signal *)
Theorem C85_noise_power_refuted :
  ~ (forall p q u v x y z, well_formed x -> 0 < p -> 0 < q -> np x = 0 -> awgn p u x = Ok y -> awgn q v y = Ok z -> np z = p + q) /\
  ~ (forall p u d lo x y z, well_formed x -> 0 < p -> length (streams x) = 1%nat -> awgn p u x = Ok y -> propagate 1 (ideal_mixer d lo) 0 u y = Ok z -> np z = np y).
Proof.
  assert (W : well_formed (single [RtoC 1] 1 0)) by wf. split; intro H.
  - destruct (C85_noise 1 (fun _ _ => RtoC 0) _ W ltac:(lra)) as [y [E [Wy _]]]. destruct (C85_noise 1 (fun _ _ => RtoC 0) y Wy ltac:(lra)) as [z [Ez [_ [_ [_ [_ [N _]]]]]]].
    specialize (H 1 1 _ _ _ y z W ltac:(lra) ltac:(lra) eq_refl E Ez). rewrite N in H by lra. lra.
  - assert (E : exists row, awgn 1 (fun _ _ => RtoC 0) (single [RtoC 1] 1 0) = Ok (Rf [row] 1 [1] [0] 1 1) /\ length row = 1%nat).
    { unfold awgn. destruct (Rlt_dec 1 0); [lra|]. destruct (Req_EM_T 1 0); [lra|]. rewrite copy_ok by exact W. eexists. split; reflexivity. }
    destruct E as [row [E Lr]]. assert (Wy : well_formed (Rf [row] 1 [1] [0] 1 1)) by wf. destruct (ideal_eq Up 1 _ row Wy eq_refl) as [f [p [Ef [Ep I]]]]. injection Ep as <-.
    specialize (H 1 (fun _ _ => RtoC 0) Up 1 _ _ (Rf [row] 1 [Rabs (f + 1)] [0] (Rabs (f + 1)) 0) W ltac:(lra) eq_refl E).
    assert (Q : propagate 1 (ideal_mixer Up 1) 0 (fun _ _ => RtoC 0) (Rf [row] 1 [1] [0] 1 1) = Ok (Rf [row] 1 [Rabs (f + 1)] [0] (Rabs (f + 1)) 0)).
    { unfold propagate. cbn [streams length Nat.eqb negb]. rewrite I. cbn [bind]. unfold awgn. destruct (Rlt_dec 0 0); [lra|]. destruct (Req_EM_T 0 0); [reflexivity|lra]. }
    specialize (H Q). cbn in H. lra.
Qed.
Print Assumptions C85_noise_power_refuted.
(** Blocks reject signals with another number of streams, whatever they compute *)
Theorem C85_ports : forall ports block power unit x, length (streams x) <> ports -> propagate ports block power unit x = Raise ValueError.
Proof. intros ports block power unit x H. unfold propagate. destruct (Nat.eqb_spec (length (streams x)) ports); [contradiction|reflexivity]. Qed.
Print Assumptions C85_ports.
