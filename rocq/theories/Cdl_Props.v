(** Clusters of cluster delay lines (C109). *)
From Coq Require Import Reals List Lra Lia Sorting.Sorted Sorting.Permutation.
From Verif Require Import Base BaseLemmas Log_Model Cdl_Model Cdl_Spec Cdl_Proofs.
Import ListNotations.
Open Scope R_scope.

(** A link of three clusters without and with line of sight *)
Definition link_a : link := mkLink 1 1 0 0 false [1; 1 / 2; 1 / 4] [0; 40; 0] 0 1000000000 100 1 TOF false.
Definition link_b : link := mkLink 3 1 9 0 true [1; 1 / 2] [0; 0] 60 1000000000 100 2 ZERO true.
Lemma link_a_sound : sound link_a.
Proof. unfold sound; cbn. repeat split; try lra; try discriminate; try reflexivity; repeat (destruct H as [<-|H]; [lra|]); destruct H. Qed.
Lemma link_b_sound : sound link_b.
Proof. unfold sound; cbn. repeat split; try lra; try discriminate; try reflexivity; repeat (destruct H as [<-|H]; [lra|]); destruct H. Qed.
Lemma ln2_pos : 0 < ln 2.
Proof. rewrite <- ln_1. apply ln_increasing; lra. Qed.
Lemma ln_half : ln (1 / 2) = - ln 2.
Proof. replace (1 / 2) with (/ 2) by lra. apply ln_Rinv. lra. Qed.
Lemma ln_quarter : ln (1 / 4) = - 2 * ln 2.
Proof. replace (1 / 4) with (/ (2 * 2)) by lra. rewrite ln_Rinv, ln_mult by lra. lra. Qed.
Lemma perm_eq : forall l m : list R, l = m -> Permutation l m.
Proof. intros l m ->. reflexivity. Qed.
Lemma cons_eq : forall (x y : R) l m, x = y -> l = m -> x :: l = y :: m.
Proof. congruence. Qed.
Lemma link_a_delays : ordered_delays link_a [0; ln 2; 2 * ln 2].
Proof.
  pose proof ln2_pos. split.
  - repeat (constructor; [|repeat (constructor; [lra|]); try constructor]). constructor.
  - cbn. unfold delay_of. rewrite ln_1, ln_half, ln_quarter. apply perm_eq. repeat apply cons_eq; lra || reflexivity.
Qed.

(** Samples exist unless both devices are at the same place. *)
Theorem C109_same_place : forall i, (sample_of i = Raise RuntimeError <-> i_distance i = 0) /\ (i_distance i <> 0 -> exists s, sample_of i = Ok s).
Proof.
  intro i. split; [|apply sample_exists]. split.
  - intro E. destruct (Req_EM_T (i_distance i) 0) as [D|D]; [exact D|]. destruct (sample_exists i D) as (s & E'). congruence.
  - intro D. unfold sample_of. destruct (Req_EM_T (i_distance i) 0); [reflexivity|contradiction].
Qed.
Print Assumptions C109_same_place.

(** Delays start at the time of flight or at zero. *)
Theorem C109_offset : forall i s, sample_of i = Ok s -> s_offset s = match i_normalization i with TOF => i_distance i / 299792458 | ZERO => 0 end.
Proof. intros i s E. destruct (sample_form i _ s (ordered_exists i) E) as (_ & ->). reflexivity. Qed.
Print Assumptions C109_offset.
Example C109_offset_met : exists s, sample_of link_a = Ok s /\ s_offset s = 100 / 299792458.
Proof. destruct (sample_exists link_a) as (s & E); [cbn; lra|]. exists s. split; [exact E|]. exact (C109_offset _ _ E). Qed.

(** Each cluster has one delay and one power; there is at least one cluster and at most one for each draw. *)
Theorem C109_clusters : forall i s, sound i -> sample_of i = Ok s ->
  length (s_delays s) = length (s_powers s) /\ (1 <= length (s_powers s) <= length (i_xs i))%nat.
Proof.
  intros i s So E. pose proof (ordered_exists i) as Or. set (l := sort _) in *. destruct (sample_form i l s Or E) as (_ & ->). cbn [s_delays s_powers].
  rewrite map_length, combine_length, firstn_length, all_delays_length. pose proof (eliminate_length (standard_powers i l)) as L. pose proof (standard_length i l So Or) as L2. pose proof (ordered_length i l Or) as L3.
  destruct (standard_first i l So Or) as (p & r & _ & r' & Ef). assert (1 <= length (eliminate (standard_powers i l)))%nat by (rewrite Ef; cbn; lia). lia.
Qed.
Print Assumptions C109_clusters.
Example C109_clusters_met : sound link_a /\ exists s, sample_of link_a = Ok s.
Proof. split; [exact link_a_sound|]. apply sample_exists. cbn. lra. Qed.

(** Delays are those of the standard in ascending order, relative to the first, and scaled in line of sight. *)
Theorem C109_delay_values : forall i l s, sound i -> ordered_delays i l -> sample_of i = Ok s ->
  s_delays s = firstn (length (s_powers s)) (map (fun t => (t - hd 0 l) / (if i_los i then 775 / 1000 - 433 / 10000 * i_rice i + 2 / 10000 * i_rice i ^ 2 + 17 / 100000 * i_rice i ^ 3 else 1)) l).
Proof.
  intros i l s So Or E. destruct (C109_clusters i s So E) as (L & _). destruct (sample_form i l s Or E) as (_ & ->). cbn [s_delays s_powers] in *. rewrite <- L.
  rewrite firstn_length. unfold all_delays. fold (rice_scale (i_rice i)). rewrite map_length. pose proof (eliminate_length (standard_powers i l)). rewrite (standard_length i l So Or) in *. rewrite Nat.min_l by lia. reflexivity.
Qed.
Print Assumptions C109_delay_values.
Example C109_delay_values_met : sound link_a /\ ordered_delays link_a [0; ln 2; 2 * ln 2] /\ exists s, sample_of link_a = Ok s.
Proof. split; [exact link_a_sound|]. split; [exact link_a_delays|]. apply sample_exists. cbn. lra. Qed.

(** Without line of sight, and with it for Rice factors of at least -20 dB, delays ascend from zero. *)
Theorem C109_delays : forall i s, sound i -> (i_los i = true -> -20 <= i_rice i) -> sample_of i = Ok s ->
  ascending (s_delays s) /\ (forall t, In t (s_delays s) -> 0 <= t) /\ nth_error (s_delays s) 0 = Some 0.
Proof.
  intros i s So K E. destruct (C109_clusters i s So E) as (L & G & _). pose proof (ordered_exists i) as Or. set (l := sort _) in *. destruct (all_delays_sound i l So K Or) as (A & N & r & Z).
  destruct (sample_form i l s Or E) as (_ & ->). cbn [s_delays s_powers] in *. set (n := length (eliminate _)) in *. split; [|split].
  - apply ascending_firstn. exact A.
  - intros t I. apply N. apply in_firstn in I. exact I.
  - rewrite Z in *. destruct n as [|n]; [|reflexivity]. cbn in L, G. lia.
Qed.
Print Assumptions C109_delays.
Example C109_delays_met : sound link_b /\ i_los link_b = true /\ -20 <= i_rice link_b /\ exists s, sample_of link_b = Ok s.
Proof. split; [exact link_b_sound|]. cbn. split; [reflexivity|]. split; [lra|]. apply sample_exists. cbn. lra. Qed.

(** For weaker lines of sight delays are negative: below -25 dB no delay is positive, and some are negative. *)
Definition link_c : link := mkLink 1 1 (-25) 0 true [1; 1 / 2] [0; 0] 0 1000000000 100 1 ZERO false.
Lemma link_c_sound : sound link_c.
Proof. unfold sound; cbn. repeat split; try lra; try discriminate; try reflexivity; repeat (destruct H as [<-|H]; [lra|]); destruct H. Qed.
Lemma link_c_delays : ordered_delays link_c [0; ln 2].
Proof.
  pose proof ln2_pos. split.
  - repeat (constructor; [|repeat (constructor; [lra|]); try constructor]). constructor.
  - cbn. unfold delay_of. rewrite ln_1, ln_half. apply perm_eq. repeat apply cons_eq; lra || reflexivity.
Qed.
Lemma profile_flat : forall t z, profile_power 1 1 t z = Rpower 10 (- z / 10).
Proof. intros. unfold profile_power. replace (- t * (1 - 1) / (1 * 1)) with 0 by lra. rewrite exp_0. lra. Qed.
Lemma ten_zero : Rpower 10 (- 0 / 10) = 1.
Proof. replace (- 0 / 10) with 0 by lra. apply Rpower_O. lra. Qed.
Lemma keeps_true : forall a p, a * Rpower 10 (-25 / 10) <= p -> keeps a p = true.
Proof. intros a p H. unfold keeps. destruct (Rle_dec _ _); [reflexivity|contradiction]. Qed.
Lemma keeps_false : forall a p, p < a * Rpower 10 (-25 / 10) -> keeps a p = false.
Proof. intros a p H. unfold keeps. destruct (Rle_dec _ _); [lra|reflexivity]. Qed.
Theorem C109_negative_delays_refuted :
  (forall i s t, sound i -> i_los i = true -> i_rice i <= -25 -> sample_of i = Ok s -> In t (s_delays s) -> t <= 0) /\
  exists i s t, sound i /\ i_los i = true /\ i_rice i = -25 /\ sample_of i = Ok s /\ In t (s_delays s) /\ t < 0.
Proof.
  split.
  - intros i s t So Lo K E I. pose proof (ordered_exists i) as Or. set (l := sort _) in *. rewrite (C109_delay_values i l s So Or E) in I. rewrite Lo in I. fold (rice_scale (i_rice i)) in I.
    assert (J : In t (map (fun t => (t - hd 0 l) / rice_scale (i_rice i)) l)) by (apply in_firstn in I; exact I).
    apply in_map_iff in J. destruct J as (u & <- & J). pose proof (rice_scale_neg (i_rice i) K) as N. apply Rinv_lt_0_compat in N. destruct Or as [A _]. pose proof (ascending_hd l u A J). unfold Rdiv. nra.
  - destruct (sample_exists link_c) as (s & E); [cbn; lra|]. exists link_c, s, (ln 2 / rice_scale (-25)). split; [exact link_c_sound|]. split; [reflexivity|]. split; [reflexivity|]. split; [exact E|].
    pose proof (rice_scale_neg (-25) ltac:(lra)) as N. apply Rinv_lt_0_compat in N. pose proof ln2_pos. split; [|unfold Rdiv; nra].
    destruct (sample_form link_c _ s link_c_delays E) as (_ & ->). cbn [s_delays].
    assert (Ef : eliminate (standard_powers link_c [0; ln 2]) = standard_powers link_c [0; ln 2]).
    { unfold standard_powers. cbn [link_c i_los i_rice i_zs i_r_tau i_spread combine map fst snd hd]. rewrite !profile_flat, ten_zero. cbn [normalised total fold_right map]. unfold eliminate. cbn [filter hd].
      pose proof cutoff_lt as C. pose proof (ten_pos (-25 / 10)) as P. set (c := Rpower 10 (-25 / 10)) in *.
      assert (Q : 1 / ((1 + c) * (1 + (1 + 0))) = 1 / 2 * / (1 + c)) by (field; lra). assert (W : 0 < / (1 + c)) by (apply Rinv_0_lt_compat; lra).
      rewrite !keeps_true; [reflexivity| |]; fold c; rewrite Q; unfold Rdiv; assert (B1 : 0 < c * / (1 + c)) by (apply Rmult_lt_0_compat; lra); assert (B2 : c * / (1 + c) <= 1 / 10 * / (1 + c)) by (apply Rmult_le_compat_r; lra); assert (B3 : c * / (1 + c) * c <= c * / (1 + c) * (1 / 10)) by (apply Rmult_le_compat_l; lra); lra. }
    rewrite Ef. cbn. right. left. rewrite Rminus_0_r. reflexivity.
Qed.
Print Assumptions C109_negative_delays_refuted.

(** With line of sight and Rice factors of at least 0 dB each cluster after the first is earlier than the standard requires. *)
Theorem C109_delay_scale_refuted : forall i l s j t d, sound i -> i_los i = true -> 0 <= i_rice i -> ordered_delays i l -> sample_of i = Ok s ->
  nth_error l j = Some t -> hd 0 l < t -> nth_error (s_delays s) j = Some d -> d < (t - hd 0 l) / standard_scale (i_rice i).
Proof.
  intros i l s j t d So Lo K Or E T H D. rewrite (C109_delay_values i l s So Or E), Lo in D. fold (rice_scale (i_rice i)) in D. rewrite nth_error_firstn in D.
  destruct (Nat.ltb j (length (s_powers s))); [|discriminate]. rewrite nth_error_map, T in D. cbn in D. injection D as <-. pose proof (standard_scale_pos _ K). pose proof (scales_differ _ K).
  unfold Rdiv. apply Rmult_lt_compat_l; [lra|]. apply Rinv_lt_contravar; [apply Rmult_lt_0_compat; lra|lra].
Qed.
Print Assumptions C109_delay_scale_refuted.

(** Powers without oxygen absorption: those of the standard that are not more than 25 dB weaker than the first
    cluster, times path loss and the squared gain. *)
Theorem C109_power_values : forall i l s, sound i -> ordered_delays i l -> sample_of i = Ok s -> i_absorption i = false ->
  exists f, selects f (hd 0 (standard_powers i l)) /\
  s_powers s = map (fun p => p * Rpower 10 (- i_pathloss i / 10) * i_gain i ^ 2) (filter f (standard_powers i l)).
Proof.
  intros i l s So Or E Ab. exists (keeps (hd 0 (standard_powers i l))). split; [intro p; apply keeps_spec|]. destruct (sample_form i l s Or E) as (_ & ->). cbn [s_powers]. fold (eliminate (standard_powers i l)).
  assert (L : length (firstn (length (eliminate (standard_powers i l))) (all_delays i l)) = length (eliminate (standard_powers i l))) by (rewrite firstn_length, all_delays_length; pose proof (eliminate_length (standard_powers i l)); rewrite (standard_length i l So Or) in *; lia).
  etransitivity; [|apply f_equal; apply (map_snd_combine _ _ L)]. rewrite map_map. apply map_ext. intros [a b]. cbn [fst snd]. unfold oxygen_loss. rewrite Ab. unfold db2lin, factor. ring.
Qed.
Print Assumptions C109_power_values.
Example C109_power_values_met : sound link_a /\ ordered_delays link_a [0; ln 2; 2 * ln 2] /\ i_absorption link_a = false /\ exists s, sample_of link_a = Ok s.
Proof. split; [exact link_a_sound|]. split; [exact link_a_delays|]. split; [reflexivity|]. apply sample_exists. cbn. lra. Qed.

(** Powers and path loss: without oxygen absorption the powers add up to path loss times squared gain,
    except for at most 25 dB less than that for each cluster removed. *)
Theorem C109_energy : forall i s, sound i -> sample_of i = Ok s -> i_absorption i = false -> i_gain i <> 0 ->
  (forall p, In p (s_powers s) -> 0 < p) /\
  (1 - INR (length (i_xs i) - length (s_powers s)) * Rpower 10 (-25 / 10)) * (Rpower 10 (- i_pathloss i / 10) * i_gain i ^ 2) <= total (s_powers s) /\
  total (s_powers s) <= Rpower 10 (- i_pathloss i / 10) * i_gain i ^ 2.
Proof.
  intros i s So E Ab G. pose proof (ordered_exists i) as Or. set (l := sort _) in *. pose proof (energy_plain i l So Or Ab) as En. unfold energy in En. rewrite E in En. unfold energy_scale in En. change (total (s_powers s)) with (sum (s_powers s)). rewrite En.
  change (db2lin (- i_pathloss i) Power) with (Rpower 10 (- i_pathloss i / 10)). pose proof (ten_pos (- i_pathloss i / 10)) as P1. assert (P2 : 0 < i_gain i ^ 2) by (assert (0 < i_gain i * i_gain i) by (apply Rsqr_pos_lt; exact G); cbn; lra).
  assert (P : 0 < Rpower 10 (- i_pathloss i / 10) * i_gain i ^ 2) by (apply Rmult_lt_0_compat; assumption). split.
  - intros p I. destruct (C109_power_values i l s So Or E Ab) as (f & _ & V). rewrite V in I. apply in_map_iff in I. destruct I as (q & <- & I). apply filter_In in I. destruct I as [I _]. apply standard_pos in I. rewrite Rmult_assoc. apply Rmult_lt_0_compat; assumption.
  - assert (L : length (s_powers s) = length (eliminate (standard_powers i l))) by (destruct (sample_form i l s Or E) as (_ & ->); cbn [s_powers]; rewrite map_length, combine_length, (kept_length i l So Or); lia).
    rewrite L. pose proof (kept_bounds i l So Or) as [B1 B2]. set (x := sum (eliminate _)) in *. set (y := 1 - _) in *. split; nra.
Qed.
Print Assumptions C109_energy.
Example C109_energy_met : sound link_a /\ i_absorption link_a = false /\ i_gain link_a <> 0 /\ exists s, sample_of link_a = Ok s.
Proof. split; [exact link_a_sound|]. split; [reflexivity|]. split; [cbn; lra|]. apply sample_exists. cbn. lra. Qed.

(** With equal shadowing of all clusters later clusters are never stronger. *)
Theorem C109_decay : forall i s z, sound i -> sample_of i = Ok s -> i_absorption i = false -> 1 <= i_r_tau i -> (forall x, In x (i_zs i) -> x = z) -> descending (s_powers s).
Proof.
  intros i s z So E Ab Rt Z. pose proof (ordered_exists i) as Or. set (l := sort _) in *. destruct (C109_power_values i l s So Or E Ab) as (f & _ & ->).
  apply descending_mono. { intros a b L. pose proof (ten_pos (- i_pathloss i / 10)). pose proof (pow2_ge_0 (i_gain i)). apply Rmult_le_compat_r; [assumption|]. apply Rmult_le_compat_r; lra. }
  apply descending_filter. unfold standard_powers. apply normalised_descending; [apply ten_pos|intros p I; apply in_map_iff in I; destruct I as (q & <- & _); apply profile_pos|].
  assert (Le : length l = length (i_zs i)) by (rewrite (ordered_length i l Or); destruct So as (_ & _ & _ & Q & _); symmetry; exact Q).
  rewrite (combine_constant (fun t w => profile_power (i_r_tau i) (i_spread i) (t - hd 0 l) w) z l (i_zs i) Le Z). destruct Or as [A _]. apply descending_map; [|exact A]. intros a b L. unfold profile_power.
  apply Rmult_le_compat_r; [left; apply ten_pos|]. destruct So as (R0 & S0 & _). assert (I : 0 < / (i_r_tau i * i_spread i)) by (apply Rinv_0_lt_compat, Rmult_lt_0_compat; assumption).
  assert (M : - (b - hd 0 l) * (i_r_tau i - 1) / (i_r_tau i * i_spread i) <= - (a - hd 0 l) * (i_r_tau i - 1) / (i_r_tau i * i_spread i)) by (unfold Rdiv; apply Rmult_le_compat_r; [lra|]; apply Rmult_le_compat_r; lra).
  destruct M as [M| ->]; [left; apply exp_increasing; exact M|right; reflexivity].
Qed.
Print Assumptions C109_decay.
Example C109_decay_met : sound link_b /\ sound (with_absorption link_b false) /\ 1 <= i_r_tau link_b /\ forall x, In x (i_zs link_b) -> x = 0.
Proof. split; [exact link_b_sound|]. split; [exact link_b_sound|]. cbn. split; [lra|]. intros x [<-|[<-|[]]]; reflexivity. Qed.

(** With line of sight of at least 0 dB the clusters removed are those more than 25 dB weaker than the strongest. *)
Theorem C109_cutoff : forall i l s m, sound i -> i_los i = true -> 0 <= i_rice i -> ordered_delays i l -> sample_of i = Ok s -> i_absorption i = false ->
  strongest m (standard_powers i l) ->
  exists f, selects f m /\ s_powers s = map (fun p => p * Rpower 10 (- i_pathloss i / 10) * i_gain i ^ 2) (filter f (standard_powers i l)).
Proof.
  intros i l s m So Lo K Or E Ab [Im Mx]. assert (H : hd 0 (standard_powers i l) = m); [|rewrite <- H; apply C109_power_values; assumption].
  pose proof (standard_sum i l So Or) as S1. destruct (standard_first i l So Or) as (p & r & Ep & _). rewrite Ep in *. cbn [hd].
  assert (Hp : 1 / 2 <= p).
  { unfold standard_powers in Ep. rewrite Lo in Ep. destruct (map _ (combine l (i_zs i))) as [|q t] eqn:Em; [discriminate|]. cbn [normalised] in Ep. injection Ep as <- _.
    assert (A : forall x, In x (q :: t) -> 0 < x) by (rewrite <- Em; intros x I; apply in_map_iff in I; destruct I as (w & <- & _); apply profile_pos). pose proof (sum_pos (q :: t) ltac:(discriminate) A) as S. change (total (q :: t)) with (sum (q :: t)).
    set (k := Rpower 10 (i_rice i / 10)) in *. assert (Kk : 1 <= k) by (unfold k; rewrite <- (Rpower_O 10) by lra; apply ten_le; lra). clearbody k.
    assert (0 < q / ((1 + k) * sum (q :: t))) by (apply Rdiv_lt_0_compat; [apply A; left; reflexivity|apply Rmult_lt_0_compat; lra]).
    assert (1 / 2 <= k / (1 + k)) by (apply Rmult_le_reg_r with (1 + k); [lra|]; replace (k / (1 + k) * (1 + k)) with k by (field; lra); lra). change (q + total t) with (sum (q :: t)). lra. }
  apply Rle_antisym; [apply Mx; left; reflexivity|]. destruct Im as [<-|Im]; [lra|].
  assert (Pr : forall x, In x r -> 0 < x) by (intros x I; apply (standard_pos i l); rewrite Ep; right; exact I). pose proof (single_le_sum r m Pr Im). unfold sum in *. cbn [fold_right] in S1. lra.
Qed.
Print Assumptions C109_cutoff.
Example C109_cutoff_met : exists i l s m, sound i /\ i_los i = true /\ 0 <= i_rice i /\ ordered_delays i l /\ sample_of i = Ok s /\ i_absorption i = false /\ strongest m (standard_powers i l).
Proof.
  set (i := mkLink 3 1 9 0 true [1] [0] 60 1000000000 100 2 ZERO false). assert (So : sound i) by (unfold sound, i; cbn; repeat split; try lra; try discriminate; try reflexivity; destruct H as [<-|[]]; lra).
  destruct (sample_exists i) as (s & E); [cbn; lra|]. assert (Or : ordered_delays i [0]). { split; [repeat constructor|]. cbn. unfold delay_of. rewrite ln_1. apply perm_eq, cons_eq; [lra|reflexivity]. }
  pose proof (standard_length i [0] So Or) as L. destruct (standard_powers i [0]) as [|p [|q r]] eqn:Ep; try discriminate. exists i, [0], s, p.
  split; [exact So|]. split; [reflexivity|]. split; [cbn; lra|]. split; [exact Or|]. split; [exact E|]. split; [reflexivity|]. rewrite Ep. split; [left; reflexivity|]. intros q [<-|[]]; lra.
Qed.

(** Without line of sight the cutoff is relative to the first cluster instead of the strongest: clusters more than 25 dB
    weaker than the strongest are kept. *)
Definition link_d : link := mkLink 1 1 0 0 false [1; 1 / 2] [40; 0] 0 1000000000 100 1 ZERO false.
Lemma link_d_sound : sound link_d.
Proof. unfold sound; cbn. repeat split; try lra; try discriminate; try reflexivity; repeat (destruct H as [<-|H]; [lra|]); destruct H. Qed.
Lemma link_d_delays : ordered_delays link_d [0; ln 2].
Proof.
  pose proof ln2_pos. split.
  - repeat (constructor; [|repeat (constructor; [lra|]); try constructor]). constructor.
  - cbn. unfold delay_of. rewrite ln_1, ln_half. apply perm_eq. repeat apply cons_eq; lra || reflexivity.
Qed.
Lemma forty : 0 < Rpower 10 (- (40) / 10) /\ Rpower 10 (- (40) / 10) < Rpower 10 (-25 / 10).
Proof. split; [apply ten_pos|]. apply ten_lt. lra. Qed.
Theorem C109_cutoff_refuted : exists i l s p q, sound i /\ ordered_delays i l /\ sample_of i = Ok s /\ i_absorption i = false /\ In p (s_powers s) /\ In q (s_powers s) /\ far_weaker q p.
Proof.
  destruct (sample_exists link_d) as (s & E); [cbn; lra|]. pose proof forty as [F1 F2]. set (e := Rpower 10 (- (40) / 10)) in *. pose proof cutoff_lt as C.
  exists link_d, [0; ln 2], s, (e / (1 + e)), (1 / (1 + e)). split; [exact link_d_sound|]. split; [exact link_d_delays|]. split; [exact E|]. split; [reflexivity|].
  destruct (C109_power_values link_d _ s link_d_sound link_d_delays E eq_refl) as (f & Sf & V). assert (W : 0 < / (1 + e)) by (apply Rinv_0_lt_compat; lra).
  assert (P : standard_powers link_d [0; ln 2] = [e / (e + (1 + 0)); 1 / (e + (1 + 0))]) by (unfold standard_powers; cbn [link_d i_los i_rice i_zs i_r_tau i_spread combine map fst snd hd]; rewrite !profile_flat, ten_zero; reflexivity).
  rewrite P in *. cbn [hd] in Sf. replace (e + (1 + 0)) with (1 + e) in * by ring. pose proof (ten_pos (-25 / 10)) as P0. set (c := Rpower 10 (-25 / 10)) in *.
  assert (K1 : f (e / (1 + e)) = true). { apply Sf. unfold far_weaker. fold c. unfold Rdiv. assert (0 < e * / (1 + e)) by (apply Rmult_lt_0_compat; lra). nra. }
  assert (K2 : f (1 / (1 + e)) = true). { apply Sf. unfold far_weaker. fold c. unfold Rdiv. assert (0 < e * / (1 + e)) by (apply Rmult_lt_0_compat; lra). assert (e * / (1 + e) <= 1 * / (1 + e)) by (apply Rmult_le_compat_r; lra). nra. }
  cbn [filter] in V. rewrite K1, K2 in V. cbn [map link_d i_pathloss i_gain] in V. rewrite ten_zero in V. rewrite V. split; [left; ring|]. split; [right; left; ring|]. unfold far_weaker. fold c. unfold Rdiv. nra.
Qed.
Print Assumptions C109_cutoff_refuted.

(** Powers and delays of a sample belong together exactly if the clusters removed are the last ones: delays are removed at the
    end, powers where they are weak. *)
Theorem C109_pairing : forall i l s, sound i -> (i_los i = true -> -20 <= i_rice i) -> NoDup (i_xs i) -> ordered_delays i l -> sample_of i = Ok s -> i_absorption i = false ->
  ((forall q, In q (combine (s_delays s) (s_powers s)) -> In q (clusters i l)) <->
   s_powers s = firstn (length (s_powers s)) (map snd (clusters i l))).
Proof.
  intros i l s So K N Or E Ab. pose proof (C109_delay_values i l s So Or E) as D. fold (rice_scale (i_rice i)) in D. fold (all_delays i l) in D. destruct (C109_clusters i s So E) as (_ & _ & B). rewrite <- (ordered_length i l Or) in B.
  set (P := map (fun p => p * Rpower 10 (- i_pathloss i / 10) * i_gain i ^ 2) (standard_powers i l)). assert (Le : length (all_delays i l) = length P) by (unfold P; rewrite map_length, all_delays_length, (standard_length i l So Or); reflexivity).
  assert (Ec : clusters i l = combine (all_delays i l) P) by reflexivity. rewrite Ec, (map_snd_combine _ _ Le), D. apply pairing; [apply nodup_all_delays; assumption|exact Le|rewrite all_delays_length; exact B|reflexivity].
Qed.
Print Assumptions C109_pairing.
Lemma link_a_powers : let e := Rpower 10 (- (40) / 10) in standard_powers link_a [0; ln 2; 2 * ln 2] = [1 / (2 + e); e / (2 + e); 1 / (2 + e)].
Proof.
  intro e. unfold standard_powers. cbn [link_a i_los i_rice i_zs i_r_tau i_spread combine map fst snd hd]. rewrite !profile_flat, ten_zero. fold e. cbn [normalised map total fold_right]. replace (1 + (e + (1 + 0))) with (2 + e) by ring. reflexivity.
Qed.
Theorem C109_pairing_refuted : exists i l s q, sound i /\ NoDup (i_xs i) /\ ordered_delays i l /\ sample_of i = Ok s /\ i_absorption i = false /\
  In q (combine (s_delays s) (s_powers s)) /\ ~ In q (clusters i l).
Proof.
  destruct (sample_exists link_a) as (s & E); [cbn; lra|]. pose proof forty as [F1 F2]. pose proof link_a_powers as P. cbv zeta in P. set (e := Rpower 10 (- (40) / 10)) in *. pose proof cutoff_lt as C.
  exists link_a, [0; ln 2; 2 * ln 2], s, (ln 2, 1 / (2 + e)). split; [exact link_a_sound|]. split; [repeat constructor; cbn; intros H; repeat (destruct H as [H|H]; [lra|]); exact H|]. split; [exact link_a_delays|]. split; [exact E|]. split; [reflexivity|].
  destruct (C109_power_values link_a _ s link_a_sound link_a_delays E eq_refl) as (f & Sf & V). pose proof (C109_delay_values link_a _ s link_a_sound link_a_delays E) as D. assert (W : 0 < / (2 + e)) by (apply Rinv_0_lt_compat; lra). pose proof ln2_pos as L2.
  unfold clusters. rewrite P in *. cbn [hd] in Sf. pose proof (ten_pos (-25 / 10)) as P0. set (c := Rpower 10 (-25 / 10)) in *.
  assert (K1 : f (1 / (2 + e)) = true). { apply Sf. unfold far_weaker. fold c. unfold Rdiv. nra. }
  assert (K2 : f (e / (2 + e)) = false). { destruct (f (e / (2 + e))) eqn:X; [|reflexivity]. apply Sf in X. exfalso. apply X. unfold far_weaker. fold c. unfold Rdiv. nra. }
  cbn [filter] in V. rewrite K1, K2 in V. cbn [map link_a i_pathloss i_gain] in V. rewrite ten_zero in V. rewrite V in D |- *. cbn [length firstn map link_a i_los hd] in D. rewrite D. cbn [combine link_a i_pathloss i_gain i_los map hd]. rewrite ten_zero. split.
  - right. left. f_equal; field; lra.
  - intros [H|[H|[H|[]]]]; pose proof (f_equal fst H) as H1; pose proof (f_equal snd H) as H2; cbn in H1, H2; [lra| |lra]. clear H H1. assert (e * / (2 + e) < 1 * / (2 + e)) by (apply Rmult_lt_compat_r; lra). unfold Rdiv in H2. lra.
Qed.
Print Assumptions C109_pairing_refuted.

(** Energy grows with the square of the linear gain instead of the gain. *)
Theorem C109_gain_refuted : forall i g, sound i -> 0 < g ->
  energy (with_gain i g) = g ^ 2 * energy (with_gain i 1) /\ (energy (with_gain i g) = g * energy (with_gain i 1) <-> g = 1).
Proof.
  intros i g So G. pose proof (ordered_exists i) as Or. set (l := sort _) in *.
  assert (A : energy (with_gain i g) = g ^ 2 * energy (with_gain i 1)) by (rewrite (energy_form (with_gain i g) l So Or), (energy_form (with_gain i 1) l So Or); cbn [with_gain i_gain i_pathloss i_absorption i_carrier i_distance]; change (minimum (with_gain i g) l) with (minimum (with_gain i 1) l); change (all_delays (with_gain i g) l) with (all_delays (with_gain i 1) l); change (standard_powers (with_gain i g) l) with (standard_powers (with_gain i 1) l); ring).
  split; [exact A|]. rewrite A. pose proof (energy_pos (with_gain i 1) So ltac:(cbn; lra)) as P. split; [|intros ->; ring]. intro E. assert (g * energy (with_gain i 1) * (g - 1) = 0) by lra. apply Rmult_integral in H. destruct H as [H|H]; [|lra]. apply Rmult_integral in H. destruct H; lra.
Qed.
Print Assumptions C109_gain_refuted.

Lemma ten_square : forall x, Rpower 10 x ^ 2 = Rpower 10 (2 * x).
Proof. intro x. cbn [pow]. rewrite Rmult_1_r, <- Rpower_plus. f_equal. ring. Qed.
(** Oxygen absorption takes at least 0.2 dB per metre at any carrier frequency, also where the standard has no absorption. *)
Theorem C109_oxygen_refuted : forall i, sound i -> (i_los i = true -> -20 <= i_rice i) ->
  energy (with_absorption i true) <= Rpower 10 (- (2 / 100) * i_distance i) * energy (with_absorption i false) /\
  forall f, 0 < f -> energy (with_carrier i f) = energy i.
Proof.
  intros i So K. pose proof (ordered_exists i) as Or. set (l := sort _) in *. split.
  - rewrite (energy_form (with_absorption i true) l So Or), (energy_plain (with_absorption i false) l So Or eq_refl). cbn [with_absorption i_gain i_pathloss i_absorption i_carrier i_distance].
    change (minimum (with_absorption i true) l) with (minimum i l). change (all_delays (with_absorption i true) l) with (all_delays i l). change (standard_powers (with_absorption i true) l) with (standard_powers i l). change (standard_powers (with_absorption i false) l) with (standard_powers i l).
    set (k := db2lin (- i_pathloss i) Power * i_gain i ^ 2). assert (P : 0 <= k) by (apply Rmult_le_pos; [left; apply ten_pos|apply pow2_ge_0]).
    rewrite <- Rmult_assoc, (Rmult_comm _ k), Rmult_assoc. apply Rmult_le_compat_l; [exact P|]. set (D := combine _ _).
    assert (Es : sum (eliminate (standard_powers i l)) = sum (map snd D)) by (f_equal; symmetry; apply map_snd_combine, kept_length; assumption). rewrite Es, <- sum_mult. apply sum_le. intros [t p] I. cbn [fst snd].
    assert (Pp : 0 < p) by (apply in_combine_r in I; apply eliminate_in, standard_pos in I; exact I). assert (Pt : 0 <= t) by (apply in_combine_l, in_firstn in I; destruct (all_delays_sound i l So K Or) as (_ & N & _); apply N; exact I).
    assert (Pm : 0 <= minimum i l). { unfold minimum. destruct (i_los i); [lra|]. pose proof (sound_nonempty i l So Or) as Ne. destruct l as [|h r] eqn:El; [congruence|]. cbn [hd]. destruct Or as [_ Pe]. assert (Ih : In h (map (delay_of (i_r_tau i) (i_spread i)) (i_xs i))) by (apply (Permutation_in h (Permutation_sym Pe)); left; reflexivity). apply in_map_iff in Ih. destruct Ih as (x & <- & Ix). destruct So as (R0 & S0 & _ & _ & X & _). apply delay_nonneg; auto. }
    rewrite Rmult_comm. apply Rmult_le_compat_r; [lra|]. unfold oxygen_loss. rewrite oxygen_factor_one by (destruct So as (_ & _ & _ & _ & _ & _ & F); exact F).
    rewrite ten_square.
    apply ten_le. assert (0 <= speed_of_light * (t + minimum i l)) by (apply Rmult_le_pos; unfold speed_of_light; lra). lra.
  - intros f F. assert (So' : sound (with_carrier i f)) by (destruct So as (a & b & c & d & e & g & h); exact (conj a (conj b (conj c (conj d (conj e (conj g F))))))). rewrite (energy_form (with_carrier i f) l So' Or), (energy_form i l So Or). cbn [with_carrier i_gain i_pathloss i_absorption i_carrier i_distance].
    change (minimum (with_carrier i f) l) with (minimum i l). change (all_delays (with_carrier i f) l) with (all_delays i l). change (standard_powers (with_carrier i f) l) with (standard_powers i l).
    f_equal. apply sum_ext. intros q _. unfold oxygen_loss. destruct So as (_ & _ & _ & _ & _ & _ & F2). rewrite !oxygen_factor_one by assumption. reflexivity.
Qed.
Print Assumptions C109_oxygen_refuted.
Example C109_oxygen_refuted_met : sound link_b /\ (i_los link_b = true -> -20 <= i_rice link_b) /\ 0 < energy (with_absorption link_b false).
Proof. split; [exact link_b_sound|]. split; [cbn; lra|]. apply energy_pos; [exact link_b_sound|]. cbn. lra. Qed.

(** Shadow fading of the large-scale parameters has no effect. *)
Theorem C109_shadow_fading_refuted : forall i x, sample_of (with_shadow_fading i x) = sample_of i.
Proof. reflexivity. Qed.
Print Assumptions C109_shadow_fading_refuted.

Example C109_delay_scale_refuted_met : exists i l s t d, sound i /\ i_los i = true /\ 0 <= i_rice i /\ ordered_delays i l /\ sample_of i = Ok s /\
  nth_error l 1 = Some t /\ hd 0 l < t /\ nth_error (s_delays s) 1 = Some d.
Proof.
  set (i := mkLink 1 1 9 0 true [1; 1 / 2] [0; 0] 60 1000000000 100 2 ZERO false). assert (So : sound i) by (unfold sound, i; cbn; repeat split; try lra; try discriminate; try reflexivity; repeat (destruct H as [<-|H]; [lra|]); destruct H).
  assert (Or : ordered_delays i [0; ln 2]) by exact link_c_delays. destruct (sample_exists i) as (s & E); [cbn; lra|]. pose proof ln2_pos as L2.
  pose proof (C109_delay_values i _ s So Or E) as D. destruct (C109_power_values i _ s So Or E eq_refl) as (f & Sf & V).
  assert (P : exists a b, standard_powers i [0; ln 2] = [a; b] /\ a * Rpower 10 (-25 / 10) <= b /\ 0 < a).
  { unfold standard_powers, i. cbn [i_los i_rice i_zs i_r_tau i_spread combine map fst snd hd]. rewrite !profile_flat, ten_zero. cbn [normalised map total fold_right]. eexists _, _. split; [reflexivity|].
    pose proof cutoff_lt as C. pose proof (ten_pos (-25 / 10)) as Pc. set (c := Rpower 10 (-25 / 10)) in *. assert (Kk : Rpower 10 (9 / 10) < 10) by (apply Rlt_le_trans with (Rpower 10 1); [apply ten_lt; lra|rewrite Rpower_1; lra]). pose proof (ten_pos (9 / 10)) as Pk. set (k := Rpower 10 (9 / 10)) in *.
    assert (W : 0 < / (1 + k)) by (apply Rinv_0_lt_compat; lra). replace (1 / ((1 + k) * (1 + (1 + 0)))) with (1 / 2 * / (1 + k)) by (field; lra). unfold Rdiv.
    assert (k * / (1 + k) < 10 * / (1 + k)) by (apply Rmult_lt_compat_r; lra). assert (0 < k * / (1 + k)) by (apply Rmult_lt_0_compat; lra).
    set (w := / (1 + k)) in *. set (u := k * w) in *. split; [|lra]. assert ((1 * / 2 * w + u) * c <= (1 * / 2 * w + u) * (1 / 100)) by (apply Rmult_le_compat_l; lra). lra. }
  destruct P as (a & b & P & Pb & Pa). rewrite P in V, Sf. cbn [hd] in Sf. assert (Ka : f a = true) by (apply Sf; unfold far_weaker; pose proof cutoff_lt; pose proof (ten_pos (-25 / 10)); nra). assert (Kb : f b = true) by (apply Sf; unfold far_weaker; lra).
  cbn [filter] in V. rewrite Ka, Kb in V. rewrite V in D. cbn [map length firstn] in D. exists i, [0; ln 2], s, (ln 2). eexists. split; [exact So|]. split; [reflexivity|]. split; [cbn; lra|]. split; [exact Or|]. split; [exact E|]. split; [reflexivity|]. split; [cbn; lra|]. rewrite D. reflexivity.
Qed.

(** Angular spreads are real numbers and zero exactly if all paths point the same way; rotating all paths or scaling all powers
    changes nothing. *)
Theorem C109_angular_spread : forall l, l <> [] -> (forall q, In q l -> 0 < snd q) ->
  0 <= resultant l <= 1 /\ (0 < resultant l -> angular_spread l ^ 2 = - 2 * ln (resultant l)) /\
  (0 < resultant l -> (angular_spread l = 0 <-> forall a b, In a l -> In b l -> same_direction (fst a) (fst b))).
Proof.
  intros l N H. destruct (resultant_sq l N H) as (R0 & R2). pose proof (powers_pos l N H) as S. pose proof (gap_nonneg l H) as G. assert (S2 : 0 < sum (map snd l) ^ 2) by (apply pow_lt; exact S).
  assert (Q : 0 <= gap l / sum (map snd l) ^ 2) by (apply Rmult_le_pos; [exact G|left; apply Rinv_0_lt_compat; exact S2]). assert (R1 : resultant l <= 1) by nra. split; [lra|].
  assert (L : 0 < resultant l -> ln (resultant l) <= 0). { intro P. destruct (Rle_lt_or_eq_dec _ _ R1) as [L| ->]; [|rewrite ln_1; lra]. pose proof (ln_increasing _ _ P L). rewrite ln_1 in *. lra. }
  split; [intro P; unfold angular_spread; apply pow2_sqrt; specialize (L P); lra|]. intro P. specialize (L P). transitivity (gap l = 0).
  - split.
    + intro E. unfold angular_spread in E. apply sqrt_eq_0 in E; [|lra]. assert (X : resultant l = 1) by (apply ln_inv; [exact P|lra|rewrite ln_1; lra]). rewrite X in R2. assert (Y : gap l / sum (map snd l) ^ 2 = 0) by lra.
      apply Rmult_integral in Y. destruct Y as [Y|Y]; [exact Y|]. apply Rinv_0_lt_compat in S2. lra.
    + intro E. rewrite E in R2. assert (X : resultant l = 1) by (apply sq_eq; lra). unfold angular_spread. rewrite X, ln_1. replace (-2 * 0) with 0 by ring. apply sqrt_0.
  - rewrite (gap_zero l H). unfold same_direction. split; intros E a b Ia Ib; apply cos_one; apply E; assumption.
Qed.
Print Assumptions C109_angular_spread.
Example C109_angular_spread_met : let l := [(0, 1); (PI / 2, 1)] in l <> [] /\ (forall q, In q l -> 0 < snd q) /\ 0 < resultant l.
Proof.
  cbv zeta. split; [discriminate|]. split; [intros q [<-|[<-|[]]]; cbn; lra|]. unfold resultant. cbn [map fst snd sum fold_right]. rewrite cos_0, sin_0, cos_PI2, sin_PI2. apply Rdiv_lt_0_compat; [|lra]. apply sqrt_lt_R0. cbn. lra.
Qed.
Theorem C109_angular_invariance : forall l phi k, l <> [] -> (forall q, In q l -> 0 < snd q) -> 0 < k ->
  angular_spread (map (fun q => (fst q + phi, k * snd q)) l) = angular_spread l.
Proof.
  intros l phi k N H K. unfold angular_spread. do 3 f_equal. set (l' := map _ l). assert (N' : l' <> []) by (destruct l; [congruence|discriminate]).
  assert (H' : forall q, In q l' -> 0 < snd q) by (intros q I; apply in_map_iff in I; destruct I as (a & <- & I); cbn; apply Rmult_lt_0_compat; [exact K|apply H; exact I]).
  destruct (resultant_sq l N H) as (A0 & A2). destruct (resultant_sq l' N' H') as (B0 & B2). apply sq_eq; try assumption. rewrite A2, B2. f_equal. pose proof (powers_pos l N H).
  assert (G : gap l' = k ^ 2 * gap l) by (rewrite <- gap_scale, <- (gap_rotate (map (fun q => (fst q, k * snd q)) l) phi), map_map; reflexivity).
  assert (S : sum (map snd l') = k * sum (map snd l)) by (unfold l'; rewrite map_map, <- sum_mult; reflexivity). rewrite G, S. field. lra.
Qed.
Print Assumptions C109_angular_invariance.

(** Fixed profiles: their gain has no effect and, for those without line of sight, powers add up to more than one. *)
Theorem C109_profile_refuted : forall t rms k g h, profile_sample t rms k g = profile_sample t rms k h /\
  (profile_los t = false -> 1 < energy_scale (profile_sample t rms k g)).
Proof.
  intros t rms k g h. split; [reflexivity|]. intro Lo. unfold energy_scale, profile_sample. cbn [s_powers].
  assert (Z : exists p d r, In (d, 0) (profile_table t) /\ profile_table t = (fst p, snd p) :: r /\ snd p <> 0 \/ exists q, profile_table t = (fst p, 0) :: q :: r).
  { destruct t; try discriminate; cbn [profile_table].
    - exists (0, - (134 / 10)), (3819 / 10000). eexists. left. split; [right; left; reflexivity|]. split; [reflexivity|cbn; lra].
    - exists (0, 0), 0. eexists. right. eexists. reflexivity.
    - exists (0, - (44 / 10)), (6366 / 10000). eexists. left. split; [do 5 right; left; reflexivity|]. split; [reflexivity|cbn; lra]. }
  assert (T1 : Rpower 10 (0 / 10) = 1) by (replace (0 / 10) with 0 by lra; apply Rpower_O; lra).
  assert (P : forall l : list (R * R), 0 <= sum (map (fun q => Rpower 10 (snd q / 10)) l)) by (intro l; apply sum_nonneg; intros x I; apply in_map_iff in I; destruct I as (q & <- & _); left; apply ten_pos).
  destruct Z as (p & d & r & [(I & E & Ne)|(q & E)]); rewrite E in *; clear E.
  - destruct I as [I|I]; [exfalso; injection I; auto|]. cbn [map]. unfold sum. cbn [fold_right]. fold (sum (map (fun q => Rpower 10 (snd q / 10)) r)). cbn [snd]. pose proof (ten_pos (snd p / 10)).
    assert (Rpower 10 (0 / 10) <= sum (map (fun q => Rpower 10 (snd q / 10)) r)) by (apply single_le_sum; [intros y J; apply in_map_iff in J; destruct J as (w & <- & _); apply ten_pos|apply in_map_iff; exists (d, 0); split; [reflexivity|exact I]]). lra.
  - cbn [map]. unfold sum. cbn [fold_right]. fold (sum (map (fun q => Rpower 10 (snd q / 10)) r)). cbn [snd]. pose proof (ten_pos (snd q / 10)). pose proof (P r). lra.
Qed.
Print Assumptions C109_profile_refuted.

(** Cross-polarized rays: scenarios attenuate them by the cross-polarization ratio in power, fixed profiles amplify them. *)
Theorem C109_cross_polarization_refuted : (forall x, scenario_cross x ^ 2 * Rpower 10 (x / 10) = 1) /\
  (forall t, 1 < profile_cross t /\ profile_cross t ^ 2 * Rpower 10 (profile_xpr t / 10) <> 1).
Proof.
  split.
  - intro x. unfold scenario_cross. cbn [pow]. rewrite Rmult_1_r, <- !Rpower_plus. replace (_ + _ + x / 10) with 0 by lra. apply Rpower_O. lra.
  - intro t. assert (H : 1 < profile_cross t) by (unfold profile_cross; rewrite <- (Rpower_O 10) by lra; apply ten_lt; destruct t; cbn; lra). split; [exact H|]. change (Rpower 10 (profile_xpr t / 10)) with (profile_cross t). set (c := profile_cross t) in *. intro E. assert (1 < c ^ 2) by (cbn; nra). nra.
Qed.
Print Assumptions C109_cross_polarization_refuted.
