(** C124: resampling signals and mixing them to other carrier frequencies. *)
From Coq Require Import List Reals ZArith Bool Arith Lia Lra.
From Coquelicot Require Import Complex.
From Verif Require Import Base BaseLemmas Cplx Cplx_Proofs Chan_Model Chan_Proofs Res_Model Res_Spec Res_Proofs.
Import ListNotations.
Open Scope R_scope.

Definition some_routines : routines := Routines (fun q _ f i => f (q * i)%nat) (fun _ _ f => f) (fun _ _ k => if Nat.eqb k 128 then 1 else 0).
Definition some_block : blk := Blk 1 2 3 (fun _ i => RtoC (INR i)).

(** Rates that are not positive are refused; at the same rate nothing changes *)
Theorem C124_same_rate : forall rt old new f b, (old <= 0 \/ new <= 0 -> resample_block rt old new f b = Raise ValueError) /\ (0 < old -> resample_block rt old old f b = Ok b).
Proof.
  intros rt old new f b. unfold resample_block. split; [intros [H|H]|intros H].
  - destruct (Rle_dec old 0); [reflexivity|lra].
  - destruct (Rle_dec old 0); [reflexivity|]. destruct (Rle_dec new 0); [reflexivity|lra].
  - destruct (Rle_dec old 0); [lra|]. destruct (Req_EM_T old old); [reflexivity|contradiction].
Qed.
Print Assumptions C124_same_rate.

(** Raising the rate to a multiple without the filter keeps all samples at their times, and adds others in between; also for signals of several blocks *)
Theorem C124_samples_kept : forall rt old new m b, multiple old new m -> (1 <= streams b)%nat -> (1 <= samples b)%nat ->
  exists c, resample_block rt old new false b = Ok c /\ streams c = streams b /\ samples c = (m * samples b)%nat /\ offset c = (m * offset b)%nat /\
  forall r i, (i < samples b)%nat -> x c r (m * i)%nat = x b r i.
Proof.
  intros rt old new m b M Ht Hs. assert (M' := M). destruct M' as [Hm [En Ho]]. assert (G : 2 <= INR m) by (change 2 with (INR 2); apply le_INR; exact Hm).
  eexists. split; [apply resample_up; try assumption; rewrite En; nra|]. cbn [streams samples offset x]. split; [reflexivity|]. unfold resampled_count. rewrite En.
  replace (INR (samples b) * (INR m * old) / old) with (INR (m * samples b)) by (rewrite mult_INR; field; lra).
  replace (INR (offset b) * (INR m * old) / old) with (INR (m * offset b)) by (rewrite mult_INR; field; lra).
  rewrite !rounded_nat. split; [reflexivity|]. split; [reflexivity|]. intros r i Hi. apply resampled_kept; [rewrite <- En; exact M|exact Hi].
Qed.
Print Assumptions C124_samples_kept.
Theorem C124_blocks_kept : forall rt old new m l, multiple old new m -> Forall (fun b => 1 <= streams b /\ 1 <= samples b)%nat l -> ordered l ->
  exists l', resample_sparse rt old new false l = Ok l' /\ ordered l' /\ forall r n, dense_at l' r (m * n)%nat = dense_at l r n.
Proof.
  intros rt old new m l M A. assert (Hm : (2 <= m)%nat) by apply M.
  assert (K : forall l, Forall (fun b => 1 <= streams b /\ 1 <= samples b)%nat l -> exists l', resample_sparse rt old new false l = Ok l' /\
    Forall2 (fun b c => samples c = (m * samples b)%nat /\ offset c = (m * offset b)%nat /\ forall r i, (i < samples b)%nat -> x c r (m * i)%nat = x b r i) l l').
  { clear l A. induction l as [|b l IH]; intros A; [exists []; split; [reflexivity|constructor]|]. apply Forall_cons_iff in A as [[Ht Hs] A]. destruct (IH A) as [l' [E F]].
    destruct (C124_samples_kept rt old new m b M Ht Hs) as [c [Ec [_ [S1 [S2 S3]]]]]. exists (c :: l'). split; [|constructor; [repeat split; assumption|exact F]].
    unfold resample_sparse in *. cbn [mapM]. rewrite Ec. cbn [bind]. rewrite E. reflexivity. }
  intros O. destruct (K l A) as [l' [E F]]. exists l'. split; [exact E|]. split.
  - clear E A K. revert l' F. induction l as [|b l IH]; intros l' F; inversion F as [|? c ? l1 [S1 [S2 _]] F']; subst; [exact I|]. destruct l as [|b2 l]; inversion F' as [|? c2 ? l2 [S3 [S4 _]] F'']; subst; [exact I|].
    cbn [ordered] in O |- *. destruct O as [O1 O2]. split; [rewrite S1, S2, S4; nia|]. apply (IH O2 (c2 :: l2)). exact F'.
  - intros r n. unfold dense_at. generalize (RtoC 0). clear E A K O. induction F as [|b c l l' [S1 [S2 S3]] F IH]; intros v; [reflexivity|]. cbn [fold_left]. change (end_of c) with (offset c + samples c)%nat. change (end_of b) with (offset b + samples b)%nat. rewrite S1, S2.
    replace (Nat.leb (m * offset b) (m * n)) with (Nat.leb (offset b) n) by (destruct (Nat.leb_spec (offset b) n), (Nat.leb_spec (m * offset b) (m * n)); nia || reflexivity).
    replace (Nat.ltb (m * n) (m * offset b + m * samples b)) with (Nat.ltb n (offset b + samples b)) by (destruct (Nat.ltb_spec n (offset b + samples b)), (Nat.ltb_spec (m * n) (m * offset b + m * samples b)); nia || reflexivity).
    destruct (Nat.leb_spec (offset b) n) as [L|L]; cbn [andb]; [|apply IH]. destruct (Nat.ltb_spec n (offset b + samples b)) as [U|U]; [|apply IH].
    rewrite <- Nat.mul_sub_distr_l, S3 by lia. apply IH.
Qed.
Print Assumptions C124_blocks_kept.
Example C124_kept_met : multiple 2 6 3 /\ ordered [some_block; Blk 1 1 7 (fun _ _ => RtoC 1)] /\ dense_at [some_block; Blk 1 1 7 (fun _ _ => RtoC 1)] 0 7 = RtoC 1.
Proof. split; [unfold multiple; cbn [INR]; split; [lia|lra]|]. split; [cbn; lia|reflexivity]. Qed.

(** Resampling without filters is linear *)
Theorem C124_linear : forall rt old new (a : C) b1 b2 b3, 0 < old -> 0 < new -> old < new \/ new < old /\ whole (old / new) = false -> (1 <= streams b1)%nat -> (1 <= samples b1)%nat ->
  streams b2 = streams b1 -> streams b3 = streams b1 -> samples b2 = samples b1 -> samples b3 = samples b1 -> (forall r i, (i < samples b1)%nat -> x b3 r i = a * x b1 r i + x b2 r i)%C ->
  exists c1 c2 c3, resample_block rt old new false b1 = Ok c1 /\ resample_block rt old new false b2 = Ok c2 /\ resample_block rt old new false b3 = Ok c3 /\
  forall r j, x c3 r j = (a * x c1 r j + x c2 r j)%C.
Proof.
  intros rt old new a b1 b2 b3 Ho Hn D Ht Hs T2 T3 S2 S3 H.
  assert (K : forall b, streams b = streams b1 -> samples b = samples b1 -> exists c, resample_block rt old new false b = Ok c /\ x c = fun r => resampled (samples b1) (x b r) old new).
  { intros b Tb Sb. destruct D as [D|[D W]]; eexists; (split; [first [solve [apply resample_up; try assumption; lia]|apply resample_fraction; try assumption; lia]|]); cbn [x]; rewrite Sb; reflexivity. }
  destruct (K b1 eq_refl eq_refl) as [c1 [E1 X1]]. destruct (K b2 T2 S2) as [c2 [E2 X2]]. destruct (K b3 T3 S3) as [c3 [E3 X3]].
  exists c1, c2, c3. repeat (split; [assumption|]). intros r j. rewrite X1, X2, X3. apply resampled_linear. intros i Hi. apply H. exact Hi.
Qed.
Print Assumptions C124_linear.
Example C124_linear_met : whole (3 / 2) = false /\ 2 < 3.
Proof. split; [|lra]. unfold whole. rewrite (floor_unique (3 / 2) 1) by lra. destruct (Req_EM_T 1 (3 / 2)); [lra|reflexivity]. Qed.

(** Whatever the rates, times and durations are kept up to half a sample and less than a sample; so blocks one after the other overlap by at most a single sample *)
Theorem C124_times : forall rt old new f b c, old <> new -> (1 <= samples b)%nat -> resample_block rt old new f b = Ok c ->
  streams c = streams b /\ Rabs (INR (offset c) / new - INR (offset b) / old) <= 1 / 2 / new /\ Rabs (INR (samples c) / new - INR (samples b) / old) < 1 / new.
Proof.
  intros rt old new f b c Hne Hs E. destruct (resample_size rt old new f b c Hne Hs E) as [Ho [Hn [T [O S1]]]]. split; [exact T|]. assert (I := Rinv_0_lt_compat new Hn).
  split.
  - replace (INR (offset c) / new - INR (offset b) / old) with ((INR (offset c) - INR (offset b) * new / old) * / new) by (field; lra). rewrite Rabs_mult, (Rabs_right (/ new)) by lra.
    unfold Rdiv at 2. apply Rmult_le_compat_r; [lra|]. apply Rabs_le. lra.
  - replace (INR (samples c) / new - INR (samples b) / old) with ((INR (samples c) - INR (samples b) * new / old) * / new) by (field; lra). rewrite Rabs_mult, (Rabs_right (/ new)) by lra.
    unfold Rdiv at 2. apply Rmult_lt_compat_r; [exact I|]. apply Rabs_def1; lra.
Qed.
Print Assumptions C124_times.
Theorem C124_overlap : forall rt old new f b1 b2 c1 c2, (1 <= samples b1)%nat -> (1 <= samples b2)%nat -> ordered [b1; b2] -> resample_block rt old new f b1 = Ok c1 -> resample_block rt old new f b2 = Ok c2 ->
  (offset c1 + samples c1 <= offset c2 + 1)%nat.
Proof.
  intros rt old new f b1 b2 c1 c2 H1 H2 [O _] E1 E2. destruct (Req_EM_T old new) as [E|N].
  - subst new. assert (P : 0 < old) by (destruct (Rle_dec old 0) as [L|L]; [rewrite (proj1 (C124_same_rate rt old old f b1)) in E1 by (left; exact L); discriminate|lra]).
    rewrite (proj2 (C124_same_rate rt old old f b1) P) in E1. rewrite (proj2 (C124_same_rate rt old old f b2) P) in E2. injection E1 as <-. injection E2 as <-. lia.
  - destruct (resample_size rt old new f b1 c1 N H1 E1) as [Ho [Hn [_ [O1 S1]]]]. destruct (resample_size rt old new f b2 c2 N H2 E2) as [_ [_ [_ [O2 _]]]].
    apply le_INR in O. rewrite plus_INR in O. apply Nat.lt_succ_r. apply INR_lt. rewrite S_INR, !plus_INR. cbn [INR].
    assert (Q : (INR (offset b1) + INR (samples b1)) * new / old <= INR (offset b2) * new / old).
    { unfold Rdiv. rewrite !Rmult_assoc. apply Rmult_le_compat_r; [|exact O]. apply Rmult_le_pos; [lra|]. apply Rlt_le, Rinv_0_lt_compat. exact Ho. }
    replace ((INR (offset b1) + INR (samples b1)) * new / old) with (INR (offset b1) * new / old + INR (samples b1) * new / old) in Q by (field; lra). lra.
Qed.
Print Assumptions C124_overlap.
(** They do overlap in general, and then the last sample of the first block is lost *)
Theorem C124_overlap_refuted : forall rt, exists b1 b2 c1 c2, ordered [b1; b2] /\ resample_sparse rt 2 3 false [b1; b2] = Ok [c1; c2] /\ (offset c1 + samples c1 = offset c2 + 1)%nat /\
  dense_at [c1; c2] 0 (offset c2) <> x c1 0%nat 1%nat /\ dense_at [c1; c2] 0 (offset c2) = x c2 0%nat 0%nat.
Proof.
  intros rt. exists (Blk 1 1 1 (fun _ _ => RtoC 1)), (Blk 1 1 2 (fun _ _ => RtoC (-1))).
  exists (Blk 1 2 2 (fun r => resampled 1 (fun _ => RtoC 1) 2 3)), (Blk 1 2 3 (fun r => resampled 1 (fun _ => RtoC (-1)) 2 3)).
  assert (R1 : rint (INR 1 * 3 / 2) = 2%Z).
  { cbn [INR]. unfold rint. rewrite (floor_unique (1 * 3 / 2) 1) by lra. destruct (Rlt_dec (1 * 3 / 2 - 1) (1 / 2)); [lra|]. destruct (Rlt_dec (1 / 2) (1 * 3 / 2 - 1)); reflexivity. }
  assert (R2 : rint (INR 2 * 3 / 2) = 3%Z) by (replace (INR 2 * 3 / 2) with (IZR 3) by (cbn [INR]; field); apply rint_whole).
  split; [cbn; lia|]. split.
  - unfold resample_sparse. cbn [mapM]. rewrite !resample_up by (cbn [samples streams]; lra || lia). cbn [bind streams samples offset x]. unfold resampled_count. rewrite R1, R2. reflexivity.
  - cbn [offset samples x]. split; [reflexivity|]. assert (P := PI_RGT_0). change (dense_at _ 0 3) with (resampled 1 (fun _ => RtoC (-1)) 2 3 0). split; [|reflexivity].
    unfold resampled. cbn [csum INR]. intros E. apply (f_equal fst) in E. cbn [fst snd Cplus Cmult RtoC] in E. revert E. unfold Sc_Model.sinc.
    replace ((0 / 2 - 1 / 3) * 2) with (- (2 / 3)) by field. replace ((0 / 2 - 0 / 3) * 2) with 0 by field. destruct (Req_EM_T (- (2 / 3)) 0); [lra|]. destruct (Req_EM_T 0 0); [|lra].
    replace (PI * - (2 / 3)) with (- (2 / 3 * PI)) by field. rewrite sin_neg. assert (S1 : 0 < sin (2 / 3 * PI)) by (apply sin_gt_0; lra).
    replace (- sin (2 / 3 * PI) / - (2 / 3 * PI)) with (sin (2 / 3 * PI) / (2 / 3 * PI)) by (field; lra). assert (Q : 0 < sin (2 / 3 * PI) / (2 / 3 * PI)) by (apply Rdiv_lt_0_compat; lra). lra.
Qed.
Print Assumptions C124_overlap_refuted.
(** Blocks without samples keep their offset, and so change their time *)
Theorem C124_empty_refuted : forall rt old new f b, 0 < old -> 0 < new -> samples b = 0%nat -> resample_block rt old new f b = Ok b /\ (INR (offset b) / new = INR (offset b) / old <-> old = new \/ offset b = 0%nat).
Proof.
  intros rt old new f b Ho Hn Hs. split.
  - unfold resample_block. destruct (Rle_dec old 0); [lra|]. destruct (Rle_dec new 0); [lra|]. destruct (Req_EM_T old new); [reflexivity|]. rewrite Hs. reflexivity.
  - split; [|intros [->| ->]; [reflexivity|cbn [INR]; field; lra]]. intros E. destruct (Nat.eq_dec (offset b) 0) as [Z|Z]; [right; exact Z|left]. assert (P : 0 < INR (offset b)) by (apply lt_0_INR; lia).
    apply (Rmult_eq_compat_r (old * new)) in E. replace (INR (offset b) / new * (old * new)) with (INR (offset b) * old) in E by (field; lra). replace (INR (offset b) / old * (old * new)) with (INR (offset b) * new) in E by (field; lra).
    apply (Rmult_eq_reg_l (INR (offset b))); lra.
Qed.
Print Assumptions C124_empty_refuted.
(** With and without streams the number of samples differs *)
Theorem C124_count_refuted : forall rt, exists b0 b1 c0 c1, samples b0 = samples b1 /\ resample_block rt 2 3 false b0 = Ok c0 /\ resample_block rt 2 3 false b1 = Ok c1 /\ samples c0 <> samples c1.
Proof.
  intros rt. exists (Blk 0 1 0 (fun _ _ => RtoC 0)), (Blk 1 1 0 (fun _ _ => RtoC 1)). eexists. eexists. split; [reflexivity|]. split; [|split; [apply resample_up; cbn [samples streams]; lra || lia|]].
  - unfold resample_block. destruct (Rle_dec 2 0); [lra|]. destruct (Rle_dec 3 0); [lra|]. destruct (Req_EM_T 2 3); [lra|]. reflexivity.
  - cbn [samples]. unfold resampled_count, cut. cbn [INR]. unfold rint. rewrite (floor_unique (1 * 3 / 2) 1) by lra. destruct (Rlt_dec (1 * 3 / 2 - 1) (1 / 2)); [lra|].
    destruct (Rlt_dec (1 / 2) (1 * 3 / 2 - 1)); cbn; discriminate.
Qed.
Print Assumptions C124_count_refuted.

(** Lowering the rate: with the filter, which is the default, at most 27 samples raise an exception, and more samples never do *)
Theorem C124_short : forall rt old new b, 0 < new -> new < old -> (1 <= streams b)%nat -> (1 <= samples b)%nat ->
  ((samples b <= 27)%nat -> resample_block rt old new true b = Raise ValueError) /\ ((27 < samples b)%nat -> exists c, resample_block rt old new true b = Ok c).
Proof.
  intros rt old new b Hn Hd Ht Hs. unfold resample_block, padding. destruct (Rle_dec old 0); [lra|]. destruct (Rle_dec new 0); [lra|]. destruct (Req_EM_T old new); [lra|].
  destruct (Nat.ltb_spec (samples b) 1); [lia|]. destruct (Nat.ltb_spec (streams b) 1); [lia|]. destruct (Rlt_dec new old); [|lra]. cbn [andb].
  split; intros H1; destruct (Nat.leb_spec (samples b) 27); try lia; destruct (whole (old / new)); try reflexivity; eexists; reflexivity.
Qed.
Print Assumptions C124_short.
Example C124_short_met : exists b, (1 <= streams b)%nat /\ (1 <= samples b <= 27)%nat.
Proof. exists some_block. cbn. lia. Qed.
(** Lowering the rate by a whole factor filters even if told not to *)
Theorem C124_flag_refuted : forall rt old new q b, 0 < new -> (2 <= q)%nat -> old = INR q * new -> resample_block rt old new false b = resample_block rt old new true b /\
  ((1 <= streams b)%nat -> (27 < samples b)%nat -> exists c, resample_block rt old new false b = Ok c /\ forall r, x c r = decimated rt q (samples b) (x b r)).
Proof.
  intros rt old new q b Hn Hq E. assert (G : 2 <= INR q) by (change 2 with (INR 2); apply le_INR; exact Hq). assert (Q : old / new = INR q) by (rewrite E; field; lra).
  unfold resample_block, padding. rewrite Q, (proj1 (whole_nat q)), (proj2 (whole_nat q)). destruct (Rlt_dec new old); [|nra]. cbn [andb]. split; [reflexivity|]. intros Ht Hs.
  destruct (Rle_dec old 0); [nra|]. destruct (Rle_dec new 0); [lra|]. destruct (Req_EM_T old new); [lra|]. destruct (Nat.ltb_spec (samples b) 1); [lia|]. destruct (Nat.ltb_spec (streams b) 1); [lia|].
  destruct (Nat.leb_spec (samples b) 27); [lia|]. eexists. split; reflexivity.
Qed.
Print Assumptions C124_flag_refuted.
Example C124_flag_refuted_met : 10 = INR 5 * 2.
Proof. cbn [INR]. ring. Qed.

(** Mixing: nothing changes at the same carrier frequency and rate; bands that do not overlap add nothing *)
Theorem C124_mix_bands : forall rt target_rate target rate carrier b, 0 < target_rate -> 0 < rate ->
  (target_rate = rate -> target = carrier -> superimpose_to rt target_rate target rate carrier b = Ok b) /\
  ((target_rate + rate) / 2 <= Rabs (target - carrier) -> exists c, superimpose_to rt target_rate target rate carrier b = Ok c /\ samples c = samples b /\ offset c = offset b /\ forall r i, x c r i = RtoC 0).
Proof.
  intros rt target_rate target rate carrier b Ht Hr. unfold superimpose_to. destruct (Rle_dec target_rate 0); [lra|]. destruct (Rle_dec rate 0); [lra|]. split.
  - intros -> ->. destruct (Req_EM_T rate rate); [|contradiction]. destruct (Req_EM_T carrier carrier); [reflexivity|contradiction].
  - intros H. destruct (Req_EM_T target_rate rate) as [E1|E1]; [destruct (Req_EM_T target carrier) as [E2|E2]|].
    + exfalso. rewrite E2, Rminus_eq_0, Rabs_R0 in H. lra.
    + cbv zeta. destruct (Rle_dec (1 / 2 * (target_rate + rate) - Rabs (target - carrier)) 0); [|lra]. eexists. split; [reflexivity|]. repeat split.
    + cbv zeta. destruct (Rle_dec (1 / 2 * (target_rate + rate) - Rabs (target - carrier)) 0); [|lra]. eexists. split; [reflexivity|]. repeat split.
Qed.
Print Assumptions C124_mix_bands.
Example C124_mix_bands_met : (1 + 1) / 2 <= Rabs (5 - 2).
Proof. rewrite Rabs_right; lra. Qed.
(** A band that contains the signal's own with room to spare raises an exception instead of taking all of it *)
Theorem C124_mix_wide_refuted : forall rt target_rate target rate carrier b, 0 < rate -> target_rate <> rate -> rate + 2 * Rabs (target - carrier) <= target_rate -> superimpose_to rt target_rate target rate carrier b = Raise ValueError.
Proof.
  intros rt target_rate target rate carrier b Hr Hne H. assert (A := Rabs_pos (target - carrier)). unfold superimpose_to. destruct (Rle_dec target_rate 0); [lra|]. destruct (Rle_dec rate 0); [lra|]. destruct (Req_EM_T target_rate rate); [contradiction|]. cbv zeta.
  destruct (Rle_dec (1 / 2 * (target_rate + rate) - Rabs (target - carrier)) 0); [lra|]. destruct (Rle_dec (rate / 2) (1 / 2 * (1 / 2 * (target_rate + rate) - Rabs (target - carrier)))); [reflexivity|lra].
Qed.
Print Assumptions C124_mix_wide_refuted.
Example C124_mix_wide_refuted_met : 1 + 2 * Rabs (5 - 5) <= 2.
Proof. rewrite Rminus_eq_0, Rabs_R0. lra. Qed.

(** Tones keep their frequency on air and change their amplitude by the filter's response around the centre of the common band; but their phase also turns by 64 times the distance of carriers over the rate *)
Theorem C124_mix_tone : forall rt rate target carrier b (a : C) nu r i, 0 < rate -> 0 < Rabs (target - carrier) < rate -> (forall n, (n < samples b)%nat -> x b r n = a * turned (nu * INR n))%C ->
  (128 <= i)%nat -> (i + 128 < samples b)%nat ->
  let d := (target - carrier) / rate in exists c, superimpose_to rt rate target rate carrier b = Ok c /\
  x c r i = (a * turned ((nu - d) * INR i) * turned (64 * d) * csum (fun k => RtoC (fir rt ((rate - Rabs (target - carrier)) / 2) rate k) * turned ((nu - d / 2) * (128 - INR k))) 257)%C.
Proof.
  intros rt rate target carrier b a nu r i Hr Hd Hx Hi Hj d. eexists. split; [apply mixed; assumption|]. cbn [x]. fold d. unfold convolved, taps. rewrite <- csum_scal, <- csum_scal_r. apply csum_ext. intros k Hk.
  unfold around. destruct (Z.leb_spec 0 (Z.of_nat i + 128 - Z.of_nat k)); [|lia]. destruct (Z.ltb_spec (Z.of_nat i + 128 - Z.of_nat k) (Z.of_nat (samples b))); [|lia]. cbn [andb]. rewrite Hx by lia.
  replace (INR (Z.to_nat (Z.of_nat i + 128 - Z.of_nat k))) with (INR i + 128 - INR k).
  2: { rewrite (INR_IZR_INZ (Z.to_nat _)), Z2Nat.id by lia. rewrite minus_IZR, plus_IZR, <- !INR_IZR_INZ. reflexivity. }
  replace (1 / 2 * (rate - Rabs (target - carrier))) with ((rate - Rabs (target - carrier)) / 2) by field.
  assert (T : (turned (d / 2 * INR k) * turned (nu * (INR i + 128 - INR k)) * turned (- (d * INR i)) = turned ((nu - d) * INR i) * turned (64 * d) * turned ((nu - d / 2) * (128 - INR k)))%C) by (rewrite <- !turned_add; f_equal; field).
  set (t1 := turned (d / 2 * INR k)) in *. set (t2 := turned (nu * (INR i + 128 - INR k))) in *. set (t3 := turned (- (d * INR i))) in *. set (h := RtoC (fir rt _ rate k)).
  replace (h * t1 * (a * t2) * t3)%C with (a * h * (t1 * t2 * t3))%C by ring. rewrite T. ring.
Qed.
Print Assumptions C124_mix_tone.
(** So even a tone the filter passes unchanged, at the centre, is not what the receiver at the other carrier frequency sees *)
Theorem C124_mix_phase_refuted : forall rt rate target carrier b (a : C) r i, 0 < rate -> 0 < Rabs (target - carrier) < rate -> a <> RtoC 0 ->
  let d := (target - carrier) / rate in (forall n, (n < samples b)%nat -> x b r n = a * turned (d / 2 * INR n))%C -> csum (fun k => RtoC (fir rt ((rate - Rabs (target - carrier)) / 2) rate k)) 257 = RtoC 1 ->
  (128 <= i)%nat -> (i + 128 < samples b)%nat ->
  exists c, superimpose_to rt rate target rate carrier b = Ok c /\ (x c r i = (a * turned ((d / 2 - d) * INR i))%C <-> turned (64 * d) = RtoC 1).
Proof.
  intros rt rate target carrier b a r i Hr Hd Ha d Hx Hf Hi Hj. destruct (C124_mix_tone rt rate target carrier b a (d / 2) r i Hr Hd Hx Hi Hj) as [c [E X]]. exists c. split; [exact E|]. rewrite X. fold d.
  rewrite (csum_ext _ (fun k => RtoC (fir rt ((rate - Rabs (target - carrier)) / 2) rate k))).
  2: { intros k _. replace ((d / 2 - d / 2) * (128 - INR k)) with 0 by ring. unfold turned. rewrite Rmult_0_r, cos_0, sin_0. change (1, 0) with (RtoC 1). ring. }
  rewrite Hf. assert (N : turned ((d / 2 - d) * INR i) <> RtoC 0).
  { intros Z. assert (M := turned_add ((d / 2 - d) * INR i) (- ((d / 2 - d) * INR i))). rewrite Z, Rplus_opp_r in M. unfold turned in M. rewrite Rmult_0_r, cos_0, sin_0 in M. apply (f_equal fst) in M. cbn in M. lra. }
  set (t := turned ((d / 2 - d) * INR i)) in *. set (u := turned (64 * d)). split; intros H.
  - assert (Q : (a * t * u = a * t * RtoC 1)%C) by (replace (a * t * u)%C with (a * t * u * RtoC 1)%C by ring; rewrite H; ring).
    assert (NZ : (a * t)%C <> RtoC 0) by (apply Cmult_neq_0; assumption). assert (V : forall z : C, (a * t * z * / (a * t))%C = z) by (intros z; field; split; assumption).
    rewrite <- (V u), Q. apply V.
  - rewrite H. ring.
Qed.
Print Assumptions C124_mix_phase_refuted.
Example C124_mix_phase_refuted_met : csum (fun k => RtoC (fir some_routines ((10 - Rabs (3 - 2)) / 2) 10 k)) 257 = RtoC 1 /\ turned (64 * ((3 - 2) / 128)) <> RtoC 1.
Proof.
  split.
  - rewrite (csum_ext _ (fun k => if Nat.eqb k 128 then RtoC 1 else RtoC 0)) by (intros k _; cbn [fir some_routines]; destruct (Nat.eqb k 128); reflexivity). rewrite (csum_pick (fun _ => RtoC 1)). reflexivity.
  - unfold turned. replace (2 * PI * (64 * ((3 - 2) / 128))) with PI by field. rewrite cos_PI. intros H. apply (f_equal fst) in H. cbn in H. lra.
Qed.
(** And blocks are mixed as if they began at time zero: signals of several blocks get other phases than the same signals stored as a single block *)
Theorem C124_mix_offset_refuted : forall rt rate target carrier b d, 0 < rate -> 0 < Rabs (target - carrier) < rate -> filled b d ->
  exists c e, superimpose_to rt rate target rate carrier b = Ok c /\ superimpose_to rt rate target rate carrier d = Ok e /\
  forall r i, (i < samples b)%nat -> x e r (offset b + i)%nat = (x c r i * turned (- ((target - carrier) / rate * INR (offset b))))%C.
Proof.
  intros rt rate target carrier b d Hr Hd [_ [_ [Sd X]]]. eexists. eexists. split; [apply mixed; assumption|]. split; [apply mixed; assumption|]. cbn [x]. intros r i Hi.
  rewrite plus_INR. set (w := (target - carrier) / rate). replace (- (w * (INR (offset b) + INR i))) with (- (w * INR i) + - (w * INR (offset b))) by ring. rewrite turned_add.
  replace (convolved _ (samples d) (x d r) (offset b + i)) with (convolved (fun k => RtoC (fir rt (1 / 2 * (rate - Rabs (target - carrier))) rate k) * turned (w / 2 * INR k))%C (samples b) (x b r) i); [ring|].
  unfold convolved. apply csum_ext. intros k Hk. f_equal. unfold around. destruct (Z.leb_spec 0 (Z.of_nat i + 128 - Z.of_nat k)) as [L|L].
  - destruct (Z.leb_spec 0 (Z.of_nat (offset b + i) + 128 - Z.of_nat k)); [|lia]. destruct (Z.ltb_spec (Z.of_nat i + 128 - Z.of_nat k) (Z.of_nat (samples b))) as [U|U]; cbn [andb].
    + destruct (Z.ltb_spec (Z.of_nat (offset b + i) + 128 - Z.of_nat k) (Z.of_nat (samples d))); [|lia]. rewrite X by lia. destruct (Nat.ltb_spec (Z.to_nat (Z.of_nat (offset b + i) + 128 - Z.of_nat k)) (offset b)); [lia|]. f_equal. lia.
    + destruct (Z.ltb_spec (Z.of_nat (offset b + i) + 128 - Z.of_nat k) (Z.of_nat (samples d))); [lia|]. reflexivity.
  - cbn [andb]. destruct (Z.leb_spec 0 (Z.of_nat (offset b + i) + 128 - Z.of_nat k)) as [L'|L']; [|reflexivity]. destruct (Z.ltb_spec (Z.of_nat (offset b + i) + 128 - Z.of_nat k) (Z.of_nat (samples d))); [|reflexivity]. cbn [andb].
    rewrite X by lia. destruct (Nat.ltb_spec (Z.to_nat (Z.of_nat (offset b + i) + 128 - Z.of_nat k)) (offset b)); [reflexivity|lia].
Qed.
Print Assumptions C124_mix_offset_refuted.
Example C124_mix_offset_refuted_met : filled some_block (Blk 1 5 0 (fun _ n => if Nat.ltb n 3 then RtoC 0 else RtoC (INR (n - 3)))).
Proof. unfold filled, some_block. cbn [streams offset samples x]. repeat split. Qed.

(** Delays of whole samples: positive ones shift, negative ones cut off *)
Theorem C124_delay_matrix : forall rate n delay k f, 0 < rate ->
  (delay * rate = INR k -> delay_rows rate n delay None = (n + k)%nat /\ forall j, (j < n + k)%nat -> delay_apply rate n delay f j = if Nat.ltb j k then RtoC 0 else f (j - k)%nat) /\
  (delay * rate = - INR k -> delay_rows rate n delay None = (n - k)%nat /\ forall j, (j < n - k)%nat -> delay_apply rate n delay f j = f (j + k)%nat).
Proof.
  intros rate n delay k f Hr.
  assert (W : forall z, ceiling (IZR z) = z) by (intros z; unfold ceiling; rewrite <- opp_IZR, (floor_unique _ (- z)); [lia|lra]).
  assert (Hk := pos_INR k). split; intros E.
  - assert (D : 0 <= delay) by (destruct (Rle_lt_dec 0 delay); [assumption|nra]). split.
    + unfold delay_rows. rewrite (Rabs_right delay) by lra. rewrite E, INR_IZR_INZ, W. unfold sign. destruct (Rlt_dec 0 delay); [lia|]. destruct (Rlt_dec delay 0); [lra|].
      assert (Z : INR k = 0) by nra. destruct k; [lia|]. rewrite S_INR in Z. assert (P := pos_INR k). lra.
    + intros j Hj. unfold delay_apply, delay_entry. rewrite E. rewrite (csum_ext _ (fun i => f i * RtoC (Sc_Model.sinc (INR j - INR k - INR i)))%C) by (intros; ring). destruct (Nat.ltb_spec j k) as [L|L].
      * apply pick_none. intros i Hi. replace (INR j - INR k - INR i) with (INR j - INR (k + i)) by (rewrite plus_INR; ring). rewrite sinc_difference. destruct (Nat.eqb_spec j (k + i)); [lia|reflexivity].
      * apply pick; [lia|]. intros i Hi. replace (INR j - INR k - INR i) with (INR (j - k) - INR i) by (rewrite minus_INR by exact L; ring). rewrite sinc_difference. rewrite Nat.eqb_sym. reflexivity.
  - assert (D : delay <= 0) by (destruct (Rle_lt_dec delay 0); [assumption|nra]). split.
    + unfold delay_rows. rewrite (Rabs_left1 delay) by lra. replace (- delay * rate) with (INR k) by lra. rewrite INR_IZR_INZ, W. unfold sign. destruct (Rlt_dec 0 delay); [lra|]. destruct (Rlt_dec delay 0); [lia|].
      assert (Z : INR k = 0) by nra. destruct k; [lia|]. rewrite S_INR in Z. assert (P := pos_INR k). lra.
    + intros j Hj. unfold delay_apply, delay_entry. rewrite E. rewrite (csum_ext _ (fun i => f i * RtoC (Sc_Model.sinc (INR j - - INR k - INR i)))%C) by (intros; ring).
      apply pick; [lia|]. intros i Hi. replace (INR j - - INR k - INR i) with (INR (j + k) - INR i) by (rewrite plus_INR; ring). rewrite sinc_difference. rewrite Nat.eqb_sym. reflexivity.
Qed.
Print Assumptions C124_delay_matrix.
Example C124_delay_matrix_met : 2 * (3 / 2) = INR 3 /\ - 2 * (3 / 2) = - INR 3.
Proof. cbn [INR]. split; lra. Qed.
