(** C107: power and PAPR evaluators and extraction of signals. *)
From Coq Require Import List Reals Bool Arith Lia Lra.
From Coquelicot Require Import Complex.
From Verif Require Import Base BaseLemmas Signal_Model Signal_Spec Signal_Proofs Pwr_Model Pwr_Spec Pwr_Proofs.
Import ListNotations.
Open Scope R_scope.

(** Two streams of two samples; and a sparse signal of one stream: 2, silence, 0 0 *)
Definition ex_dense : csignal := Dense (mkD 2 [[RtoC 3; RtoC 1]; [RtoC 4; RtoC 1]]).
Definition ex_blocks : list cblock := [mkB 0 1 [[RtoC 2]]; mkB 2 1 [[RtoC 0]; [RtoC 0]]].
Definition ex_even : list cblock := [mkB 0 1 [[RtoC 2]]; mkB 2 1 [[RtoC 1]]].
Definition ex_sparse : csignal := Sparse ex_blocks.
Ltac sound_example := unfold sound; split; [unfold streams_ok; cbn; repeat constructor|cbn; repeat split; lia].
Lemma ex_sound : sound ex_dense /\ sound ex_sparse /\ sound (Sparse ex_even).
Proof. split; [|split]; sound_example. Qed.

(** ** Histories *)

(** An evaluator, whenever it is created, works on the signal of the latest run of its target in
    the direction it listens to that notified callbacks since the creation; without one it
    raises RuntimeError. *)
Theorem C107_latest : forall t k d before after e, listens t k = Ok d ->
  nth_error (run t (before ++ Create k :: after)) (created t before) = Some e ->
  fetched e = match latest d after with
              | Some x => Ok x
              | None => Raise RuntimeError
              end /\
  evaluate_power e = match latest d after with
                     | Some x => Ok (power x)
                     | None => Raise RuntimeError
                     end.
Proof.
  intros t k d before after e L H. unfold created in H. rewrite (history t k d before after L) in H. injection H as <-.
  unfold evaluate_power, fetched. cbn [e_signal]. destruct (latest d after); split; reflexivity.
Qed.
Print Assumptions C107_latest.
Example C107_latest_met :
  let t := mkTarget true true in
  let after := [Run Receiving ex_dense true; Run Receiving ex_sparse false; Run Transmitting ex_sparse true] in
  latest Receiving after = Some ex_dense /\ exists e, nth_error (run t ([Run Receiving ex_sparse true] ++ Create ReceivePower :: after)) (created t [Run Receiving ex_sparse true]) = Some e.
Proof. split; [reflexivity|]. cbn. eexists; reflexivity. Qed.

(** Which targets are accepted: power evaluators need a receiver and a transmitter, respectively; extractors
    follow the transmissions of everything that transmits and the receptions of everything else that receives. *)
Theorem C107_targets : forall t k,
  match listens t k with
  | Ok Receiving => receives t = true /\ (k = ReceivePower \/ (k = Extractor /\ transmits t = false))
  | Ok Transmitting => transmits t = true /\ (k = TransmitPower \/ k = Extractor)
  | Raise e => (k = ReceivePower /\ receives t = false /\ e = AttributeError) \/ (k = TransmitPower /\ transmits t = false /\ e = AttributeError) \/
               (k = Extractor /\ receives t = false /\ transmits t = false /\ e = TypeError)
  end.
Proof. intros [[] []] []; cbn; auto 8. Qed.
Print Assumptions C107_targets.
Example C107_targets_met : listens (mkTarget false true) Extractor = Ok Receiving.
Proof. reflexivity. Qed.

(** An extractor of an operator that transmits and receives never reports what was received. *)
Theorem C107_duplex_extraction_refuted :
  ~ (forall before after d x e, nth_error (run (mkTarget true true) (before ++ Create Extractor :: after)) (created (mkTarget true true) before) = Some e ->
       latest d after = Some x -> fetched e = Ok x).
Proof.
  intro H. specialize (H [] [Run Receiving ex_dense true] Receiving ex_dense (mkE Extractor Transmitting None) eq_refl eq_refl). discriminate H.
Qed.
Print Assumptions C107_duplex_extraction_refuted.

(** ** Powers *)

(** Dense signals: the mean squared magnitude of each stream, and their sum as the scalar of the evaluation. *)
Theorem C107_dense_power : forall d, (0 < num_samples (Dense d))%nat ->
  power (Dense d) = map (fun s => Some (stream_energy (Dense d) s / INR (num_samples (Dense d)))) (seq 0 (num_streams (Dense d))) /\
  power_scalar (power (Dense d)) = Some (sum_to (stream_energy (Dense d)) (num_streams (Dense d)) / INR (num_samples (Dense d))) /\
  energy (Dense d) = map (stream_energy (Dense d)) (seq 0 (num_streams (Dense d))).
Proof.
  intros d H. cbn [num_samples num_streams] in *. rewrite (dense_power d H). split; [reflexivity|]. split; [|apply dense_energy].
  unfold power_scalar. rewrite nan_sum_some, add_up_seq. f_equal. unfold Rdiv. rewrite Rmult_comm, <- sum_to_scal. apply sum_to_ext. intros. apply Rmult_comm.
Qed.
Print Assumptions C107_dense_power.
Example C107_dense_power_met : (0 < num_samples ex_dense)%nat /\ stream_energy ex_dense 0 = 25 /\ stream_energy ex_dense 1 = 2.
Proof. split; [cbn; lia|]. unfold stream_energy, level, sample. cbn. split; ring. Qed.
Theorem C107_no_samples : forall ns, power (Dense (mkD ns [])) = repeat None ns /\ power (Sparse []) = [None].
Proof.
  intro ns. split; [|reflexivity]. cbn [power d_ns d_cols]. unfold block_power, block_energy. cbn [k_cols k_ns length map]. rewrite map_map.
  rewrite (map_ext _ (fun _ => None)) by (intro; apply ratio_none). generalize 0%nat. induction ns as [|n IH]; intro a; [reflexivity|]. cbn [seq map repeat]. rewrite IH. reflexivity.
Qed.
Print Assumptions C107_no_samples.

(** The energy of a sparse signal is one number: the energy of all streams. *)
Theorem C107_sparse_energy : forall bs, sound (Sparse bs) ->
  energy (Sparse bs) = [sum_to (stream_energy (Sparse bs)) (num_streams (Sparse bs))].
Proof. exact sparse_energy. Qed.
Print Assumptions C107_sparse_energy.
Example C107_sparse_energy_met : sound ex_sparse /\ stream_energy ex_sparse 0 = 4.
Proof. split; [apply ex_sound|]. unfold stream_energy, level, sample. cbn. ring. Qed.
(** Hence a signal and its dense form disagree as soon as there are two streams. *)
Theorem C107_energy_refuted :
  ~ (forall bs d, sound (Sparse bs) -> to_dense C (RtoC 0) bs = Ok d -> energy (Sparse bs) = energy (Dense d)).
Proof.
  intro H. specialize (H [mkB 0 2 [[RtoC 1; RtoC 1]]] (mkD 2 [[RtoC 1; RtoC 1]]) ltac:(sound_example) eq_refl).
  apply (f_equal (@length R)) in H. discriminate H.
Qed.
Print Assumptions C107_energy_refuted.

(** The power of a stream of a sparse signal is the mean of the powers of its blocks, each taken as a signal. *)
Theorem C107_sparse_power : forall bs, sound (Sparse bs) -> bs <> [] -> (forall b, In b bs -> k_cols b <> []) ->
  exists p, power (Sparse bs) = map (fun s => Some (p s)) (seq 0 (num_streams (Sparse bs))) /\
    forall s, p s = fold_right Rplus 0 (map (fun b => stream_energy (Dense (mkD (k_ns b) (k_cols b))) s / INR (length (k_cols b))) bs) / INR (length bs).
Proof.
  intros bs H N L. eexists. split.
  - apply sparse_power; [exact H|exact N|]. intros b I. specialize (L b I). destruct (k_cols b); [contradiction|cbn; lia].
  - intro s. cbv beta. f_equal. fold (add_up (map (fun b => stream_energy (Dense (mkD (k_ns b) (k_cols b))) s / INR (length (k_cols b))) bs)). f_equal. apply map_ext. intro b. f_equal.
    unfold part, stream_energy. cbn [num_samples d_cols]. rewrite (add_up_map _ _ []). apply sum_to_ext. intros t Lt. symmetry. apply dense_level. exact Lt.
Qed.
Print Assumptions C107_sparse_power.
Example C107_sparse_power_met : sound ex_sparse /\ ex_blocks <> [] /\ forall b, In b ex_blocks -> k_cols b <> [].
Proof. split; [apply ex_sound|]. split; [discriminate|]. intros b [<-|[<-|[]]]; discriminate. Qed.

(** Over blocks of one length this is the energy over the number of stored samples ... *)
Theorem C107_sparse_power_equal_blocks : forall bs n, sound (Sparse bs) -> bs <> [] -> (0 < n)%nat -> (forall b, In b bs -> length (k_cols b) = n) ->
  power (Sparse bs) = map (fun s => Some (stream_energy (Sparse bs) s / INR (stored bs))) (seq 0 (num_streams (Sparse bs))).
Proof.
  intros bs n H N P L. rewrite (sparse_power bs H N) by (intros b I; rewrite (L b I); exact P). apply map_ext. intro s. f_equal.
  rewrite (sparse_stream_energy bs s (proj2 H)).
  assert (E1 : stored bs = (n * length bs)%nat).
  { unfold stored. clear H N. induction bs as [|b bs IH]; [cbn; lia|]. cbn [map list_sum fold_right length]. fold (list_sum (map (fun b => length (k_cols b)) bs)).
    rewrite IH by (intros; apply L; right; assumption). rewrite (L b (or_introl eq_refl)). lia. }
  rewrite E1, mult_INR.
  assert (E2 : add_up (map (fun b => part b s / INR (length (k_cols b))) bs) = add_up (map (fun b => part b s) bs) / INR n).
  { pose proof (INR_pos n P) as Pn. clear - L Pn. unfold add_up. induction bs as [|b bs IH]; cbn [map fold_right]; [field; lra|].
    rewrite IH by (intros; apply L; right; assumption). rewrite (L b (or_introl eq_refl)). field. lra. }
  rewrite E2. field. split; apply Rgt_not_eq; apply INR_pos; [destruct bs; [contradiction|cbn; lia]|exact P].
Qed.
Print Assumptions C107_sparse_power_equal_blocks.
Example C107_sparse_power_equal_blocks_met : sound (Sparse ex_even) /\ ex_even <> [] /\ forall b, In b ex_even -> length (k_cols b) = 1%nat.
Proof. split; [apply ex_sound|]. split; [discriminate|]. intros b [<-|[<-|[]]]; reflexivity. Qed.
(** ... but not for blocks of different lengths, against the documentation. *)
Theorem C107_sparse_power_refuted :
  ~ (forall bs, sound (Sparse bs) -> bs <> [] -> (forall b, In b bs -> k_cols b <> []) ->
       power (Sparse bs) = map (fun s => Some (stream_energy (Sparse bs) s / INR (stored bs))) (seq 0 (num_streams (Sparse bs)))).
Proof.
  intro H. specialize (H ex_blocks (proj1 (proj2 ex_sound)) ltac:(discriminate) ltac:(intros b [<-|[<-|[]]]; discriminate)).
  rewrite (sparse_power ex_blocks (proj1 (proj2 ex_sound)) ltac:(discriminate)) in H by (intros b [<-|[<-|[]]]; cbn; lia).
  cbn [num_streams sp_ns ex_blocks k_ns seq map] in H. injection H as H. revert H. unfold stream_energy, level, sample, part, add_up, stored, magnitude2, entry. cbn. lra.
Qed.
Print Assumptions C107_sparse_power_refuted.
(** The power reported for a sparse signal is not that of its samples either. *)
Theorem C107_representation_refuted :
  ~ (forall bs d, sound (Sparse bs) -> bs <> [] -> to_dense C (RtoC 0) bs = Ok d -> power (Sparse bs) = power (Dense d)).
Proof.
  intro H. specialize (H ex_even (mkD 1 [[RtoC 2]; [RtoC 0]; [RtoC 1]]) (proj2 (proj2 ex_sound)) ltac:(discriminate) eq_refl).
  rewrite (sparse_power ex_even (proj2 (proj2 ex_sound)) ltac:(discriminate)) in H by (intros b [<-|[<-|[]]]; cbn; lia).
  rewrite dense_power in H by (cbn; lia). cbn [sp_ns ex_even k_ns seq map d_ns] in H. injection H as H. revert H. unfold stream_energy, level, sample, part, add_up, magnitude2, entry. cbn. lra.
Qed.
Print Assumptions C107_representation_refuted.

(** ** Peak-to-average power ratio *)

(** The ratio is the mean over the streams of the largest squared magnitude over the mean one, of the samples of the signal
    regardless of its representation. *)
Theorem C107_papr : forall x, sound x -> (0 < num_samples x)%nat -> (0 < num_streams x)%nat -> (forall s, (s < num_streams x)%nat -> ~ silent x s) ->
  exists peak, (forall s, (s < num_streams x)%nat -> is_peak x s (peak s)) /\
    papr_of x = Ok (Some (sum_to (fun s => peak s / (stream_energy x s / INR (num_samples x))) (num_streams x) / INR (num_streams x))).
Proof.
  intros x H N M A. exists (fun s => top (level x s) (num_samples x)). split; [intros s _; apply top_is_peak; exact N|]. apply papr_value; assumption.
Qed.
Print Assumptions C107_papr.
Lemma ex_audible : forall s, (s < num_streams ex_dense)%nat -> ~ silent ex_dense s.
Proof. intros [|[|s]] L; [| |cbn in L; lia]; intro Z; specialize (Z 0%nat ltac:(cbn; lia)); revert Z; unfold level, sample; cbn; lra. Qed.
Example C107_papr_met : sound ex_dense /\ (0 < num_samples ex_dense)%nat /\ (0 < num_streams ex_dense)%nat /\ (forall s, (s < num_streams ex_dense)%nat -> ~ silent ex_dense s) /\
  is_peak ex_dense 0 16.
Proof.
  split; [apply ex_sound|]. split; [cbn; lia|]. split; [cbn; lia|]. split; [exact ex_audible|]. split.
  - exists 1%nat. split; [cbn; lia|]. unfold level, sample. cbn. ring.
  - intros [|[|t]] L; [| |cbn in L; lia]; unfold level, sample; cbn; lra.
Qed.

(** It lies between one and the number of samples; one means constant power in each stream, the number of samples means
    that each stream has one sample other than zero. *)
Theorem C107_papr_bounds : forall x r, sound x -> (0 < num_samples x)%nat -> (0 < num_streams x)%nat -> (forall s, (s < num_streams x)%nat -> ~ silent x s) ->
  papr_of x = Ok (Some r) ->
  1 <= r <= INR (num_samples x) /\
  (r = 1 <-> forall s t u, (s < num_streams x)%nat -> (t < num_samples x)%nat -> (u < num_samples x)%nat -> level x s t = level x s u) /\
  (r = INR (num_samples x) <-> forall s, (s < num_streams x)%nat -> exists t, (t < num_samples x)%nat /\ forall u, (u < num_samples x)%nat -> u <> t -> level x s u = 0).
Proof.
  intros x r H N M A E. rewrite (papr_value x H N M A) in E. injection E as E. pose proof (INR_pos _ M) as Pm. set (m := num_streams x) in *.
  assert (B : forall s, (s < m)%nat -> 1 <= ratio_of x s <= INR (num_samples x)) by (intros s L; apply ratio_bounds; [exact N|apply A; exact L]).
  assert (S0 : sum_to (ratio_of x) m = r * INR m) by (rewrite <- E; field; lra).
  assert (S1 : INR m * 1 <= sum_to (ratio_of x) m) by (rewrite <- sum_to_const; apply sum_to_le; intros; apply B; assumption).
  assert (S2 : sum_to (ratio_of x) m <= INR m * INR (num_samples x)) by (rewrite <- sum_to_const; apply sum_to_le; intros; apply B; assumption).
  split; [|split].
  - split; apply (Rmult_le_reg_r (INR m)); lra.
  - split.
    + intros R1 s t u L Lt Lu. apply (proj1 (proj2 (ratio_bounds x s N (A s L)))); [|exact Lt|exact Lu].
      symmetry. apply (sum_to_eq (fun _ => 1) (ratio_of x) m); [intros; apply B; assumption| |exact L]. rewrite sum_to_const, S0, R1. ring.
    + intro K. apply (Rmult_eq_reg_r (INR m)); [|lra]. rewrite <- S0. rewrite Rmult_comm, <- sum_to_const. apply sum_to_ext. intros s L.
      apply (proj2 (proj1 (proj2 (ratio_bounds x s N (A s L))))). intros t u Lt Lu. apply K; assumption.
  - split.
    + intros R1 s L. apply (proj2 (proj2 (ratio_bounds x s N (A s L)))).
      apply (sum_to_eq (ratio_of x) (fun _ => INR (num_samples x)) m); [intros; apply B; assumption| |exact L]. rewrite sum_to_const, S0, R1. ring.
    + intro K. apply (Rmult_eq_reg_r (INR m)); [|lra]. rewrite <- S0. rewrite Rmult_comm, <- sum_to_const. apply sum_to_ext. intros s L.
      apply (proj2 (proj2 (proj2 (ratio_bounds x s N (A s L))))). apply K. exact L.
Qed.
Print Assumptions C107_papr_bounds.
Example C107_papr_bounds_met : exists r, papr_of ex_dense = Ok (Some r).
Proof. destruct (C107_papr ex_dense (proj1 ex_sound) ltac:(cbn; lia) ltac:(cbn; lia) ex_audible) as (p & _ & E). eexists. exact E. Qed.

(** Scaling and rotating every stream by factors of its own, other than zero, changes nothing. *)
Theorem C107_papr_scaling : forall x y k, sound x -> sound y -> num_samples y = num_samples x -> num_streams y = num_streams x -> (0 < num_samples x)%nat ->
  (forall s, (s < num_streams x)%nat -> k s <> RtoC 0) ->
  (forall s t, (s < num_streams x)%nat -> (t < num_samples x)%nat -> sample y s t = (k s * sample x s t)%C) ->
  papr_of y = papr_of x.
Proof.
  intros x y k Hx Hy En Em N K V. rewrite (papr_eq x Hx N), (papr_eq y Hy) by (rewrite En; exact N). rewrite En, Em. do 2 f_equal.
  apply map_ext_in. intros s I. apply in_seq in I. set (q := magnitude2 (k s)).
  assert (Q : 0 < q).
  { unfold q. pose proof (magnitude2_nonneg (k s)) as Z. destruct (Rle_lt_or_eq_dec _ _ Z) as [Z1|Z1]; [exact Z1|]. exfalso. apply (K s); [lia|].
    unfold magnitude2 in Z1. apply injective_projections; cbn; nra. }
  assert (Lv : forall t, (t < num_samples x)%nat -> level y s t = q * level x s t).
  { intros t L. unfold level, q, magnitude2. rewrite V by lia. destruct (k s) as [a b], (sample x s t) as [c d]. cbn. ring. }
  assert (Ee : stream_energy y s = q * stream_energy x s) by (unfold stream_energy; rewrite En, <- sum_to_scal; apply sum_to_ext; exact Lv).
  assert (Et : top (level y s) (num_samples x) = q * top (level x s) (num_samples x)).
  { rewrite <- En. apply top_unique; [rewrite En; exact N|]. destruct (top_spec (level x s) (num_samples x) N) as [(t & L & E) B]. unfold is_peak. rewrite En. split.
    - exists t. split; [exact L|]. rewrite Lv, E by exact L. reflexivity.
    - intros u Lu. rewrite Lv by exact Lu. apply Rmult_le_compat_l; [lra|]. apply B. exact Lu. }
  rewrite Ee, Et. pose proof (INR_pos _ N) as Pn. destruct (Req_EM_T (stream_energy x s) 0) as [Z|Z].
  - rewrite Z, Rmult_0_r. unfold Rdiv. rewrite Rmult_0_l. rewrite !ratio_none. reflexivity.
  - rewrite !ratio_some; [f_equal; field; repeat split; lra| |].
    + apply Rmult_integral_contrapositive_currified; [exact Z|apply Rinv_neq_0_compat; lra].
    + apply Rmult_integral_contrapositive_currified; [apply Rmult_integral_contrapositive_currified; [lra|exact Z]|apply Rinv_neq_0_compat; lra].
Qed.
Print Assumptions C107_papr_scaling.
Example C107_papr_scaling_met : let y := Dense (mkD 2 [[RtoC 6; RtoC 1]; [RtoC 8; RtoC 1]]) in let k := fun s => if Nat.eqb s 0 then RtoC 2 else RtoC 1 in
  sound y /\ num_samples y = num_samples ex_dense /\ num_streams y = num_streams ex_dense /\
  forall s t, (s < 2)%nat -> (t < 2)%nat -> sample y s t = (k s * sample ex_dense s t)%C.
Proof.
  cbn zeta. split; [sound_example|]. split; [reflexivity|]. split; [reflexivity|].
  intros [|[|s]] [|[|t]] Ls Lt; try lia; unfold sample; cbn; apply injective_projections; cbn; ring.
Qed.

(** Appending [k] samples of silence multiplies the ratio by (n + k) / n. *)
Theorem C107_papr_padding : forall x y k r, sound x -> sound y -> num_samples y = (num_samples x + k)%nat -> num_streams y = num_streams x ->
  (0 < num_samples x)%nat -> (0 < num_streams x)%nat -> (forall s, (s < num_streams x)%nat -> ~ silent x s) ->
  (forall s t, (s < num_streams x)%nat -> (t < num_samples y)%nat -> sample y s t = if (t <? num_samples x)%nat then sample x s t else RtoC 0) ->
  papr_of x = Ok (Some r) -> papr_of y = Ok (Some (r * INR (num_samples x + k) / INR (num_samples x))).
Proof.
  intros x y k r Hx Hy En Em N M A V E. rewrite (papr_value x Hx N M A) in E. injection E as E.
  assert (Lv : forall s t, (s < num_streams x)%nat -> (t < num_samples y)%nat -> level y s t = if (t <? num_samples x)%nat then level x s t else 0).
  { intros s t Ls Lt. unfold level. rewrite V by assumption. destruct (t <? num_samples x)%nat; [reflexivity|]. cbn. ring. }
  rewrite (papr_value y Hy) ; [|rewrite En; lia|rewrite Em; exact M|].
  - do 2 f_equal. rewrite Em. pose proof (INR_pos _ N) as Pn. pose proof (INR_pos _ M) as Pm.
    rewrite <- E. rewrite (sum_to_ext (ratio_of y) (fun s => INR (num_samples x + k) / INR (num_samples x) * ratio_of x s)); [rewrite sum_to_scal; field; split; lra|].
    intros s L. unfold ratio_of. rewrite En.
    assert (Ee : stream_energy y s = stream_energy x s).
    { unfold stream_energy. rewrite En, sum_to_app. rewrite (sum_to_ext (level y s) (level x s)).
      - rewrite (sum_to_ext (fun i => level y s (num_samples x + i)) (fun _ => 0)); [rewrite sum_to_0; ring|]. intros i Li. rewrite Lv by lia.
        destruct (Nat.ltb_spec (num_samples x + i) (num_samples x)); [lia|reflexivity].
      - intros t Lt. rewrite Lv by lia. destruct (Nat.ltb_spec t (num_samples x)); [reflexivity|lia]. }
    assert (Et : top (level y s) (num_samples x + k) = top (level x s) (num_samples x)).
    { rewrite <- En. apply top_unique; [lia|]. destruct (top_spec (level x s) (num_samples x) N) as [(t & Lt & Et) B]. split.
      - exists t. split; [lia|]. rewrite Lv by lia. destruct (Nat.ltb_spec t (num_samples x)); [exact Et|lia].
      - intros u Lu. rewrite Lv by lia. destruct (Nat.ltb_spec u (num_samples x)) as [Q|Q]; [apply B; exact Q|]. rewrite <- Et. apply level_nonneg. }
    rewrite Ee, Et. pose proof (energy_positive x s (audible x s (A s L))) as Pe. pose proof (INR_pos (num_samples x + k) ltac:(lia)). field. repeat split; lra.
  - rewrite Em. intros s L Z. apply (A s L). intros t Lt. specialize (Z t ltac:(lia)). rewrite Lv in Z by lia. destruct (Nat.ltb_spec t (num_samples x)); [exact Z|lia].
Qed.
Print Assumptions C107_papr_padding.
Example C107_papr_padding_met : let y := Dense (mkD 2 [[RtoC 3; RtoC 1]; [RtoC 4; RtoC 1]; [RtoC 0; RtoC 0]]) in
  sound y /\ num_samples y = (num_samples ex_dense + 1)%nat /\ num_streams y = num_streams ex_dense /\
  forall s t, (s < 2)%nat -> (t < 3)%nat -> sample y s t = if (t <? num_samples ex_dense)%nat then sample ex_dense s t else RtoC 0.
Proof.
  cbn zeta. split; [sound_example|]. split; [reflexivity|]. split; [reflexivity|].
  intros [|[|s]] [|[|[|t]]] Ls Lt; try lia; reflexivity.
Qed.

(** One silent stream makes the result undefined (NaN); without samples the evaluation fails. *)
Theorem C107_papr_silent : forall x s, sound x -> (0 < num_samples x)%nat -> (s < num_streams x)%nat -> silent x s -> papr_of x = Ok None.
Proof.
  intros x s H N L Z. rewrite (papr_eq x H N). f_equal. unfold nan_mean. rewrite nan_sum_none; [reflexivity|].
  apply in_map_iff. exists s. split; [|apply in_seq; lia].
  replace (stream_energy x s) with 0; [unfold Rdiv; rewrite Rmult_0_l; apply ratio_none|].
  symmetry. unfold stream_energy. rewrite (sum_to_ext _ (fun _ => 0)) by exact Z. apply sum_to_0.
Qed.
Print Assumptions C107_papr_silent.
Example C107_papr_silent_met : let x := Dense (mkD 2 [[RtoC 1; RtoC 0]]) in sound x /\ (0 < num_samples x)%nat /\ silent x 1.
Proof. cbn zeta. split; [sound_example|]. split; [cbn; lia|]. intros [|t] L; [|cbn in L; lia]. unfold level, sample. cbn. ring. Qed.
Theorem C107_papr_no_samples : forall x, sound x -> num_samples x = 0%nat -> (0 < num_streams x)%nat -> papr_of x = Raise ValueError.
Proof.
  intros x H N M. destruct (dense_form_levels x H) as (d & E & I). unfold papr_of. rewrite E. cbn [bind]. unfold papr_artifact. rewrite I, N.
  destruct (num_streams x); [lia|]. reflexivity.
Qed.
Print Assumptions C107_papr_no_samples.
Example C107_papr_no_samples_met : sound (Dense (mkD 2 [])).
Proof. sound_example. Qed.

(** The evaluator of transmissions works on the latest output; that of receptions on the first of the latest impinging signals, the others have
    no influence, and there must be one. *)
Theorem C107_papr_signal : forall es,
  (forall p x, papr_create TX = Ok p -> Forall (fun e => match e with Input _ => True | Output _ => False end) es ->
     forall before, papr_signal (papr_run p (before ++ Output x :: es)) = Ok x) /\
  (forall p l, papr_create RX = Ok p -> Forall (fun e => match e with Output _ => True | Input _ => False end) es ->
     forall before, papr_signal (papr_run p (before ++ Input l :: es)) = match l with x :: _ => Ok x | [] => Raise IndexError end) /\
  papr_create DUPLEX = Raise ValueError.
Proof.
  intro es. split; [|split; [|reflexivity]].
  - intros p x E F before. injection E as <-. unfold papr_run. rewrite fold_left_app. cbn [fold_left].
    assert (D : forall b p, p_direction p = TX -> p_direction (fold_left papr_hear b p) = TX).
    { induction b as [|e b IH]; intros p D; [exact D|]. cbn [fold_left]. apply IH. unfold papr_hear. rewrite D. destruct e; [reflexivity|exact D]. }
    assert (K : forall l q, Forall (fun e => match e with Input _ => True | Output _ => False end) l -> p_direction q = TX -> p_output q = Some x -> papr_signal (fold_left papr_hear l q) = Ok x).
    { induction l as [|e l IH]; intros q G D1 O; cbn [fold_left]; [unfold papr_signal; rewrite D1, O; reflexivity|]. inversion G as [|? ? G1 G2]; subst.
      apply IH; [exact G2| |]; unfold papr_hear; rewrite D1; destruct e; try destruct G1; assumption. }
    assert (D1 := D before (mkP TX None None) eq_refl). revert D1. generalize (fold_left papr_hear before (mkP TX None None)). intros q D1. apply K; [exact F| |]; unfold papr_hear; rewrite D1; reflexivity.
  - intros p l E F before. injection E as <-. unfold papr_run. rewrite fold_left_app. cbn [fold_left].
    assert (D : forall b p, p_direction p = RX -> p_direction (fold_left papr_hear b p) = RX).
    { induction b as [|e b IH]; intros p D; [exact D|]. cbn [fold_left]. apply IH. unfold papr_hear. rewrite D. destruct e; [exact D|reflexivity]. }
    assert (K : forall m q, Forall (fun e => match e with Output _ => True | Input _ => False end) m -> p_direction q = RX -> p_input q = Some l ->
              papr_signal (fold_left papr_hear m q) = match l with x :: _ => Ok x | [] => Raise IndexError end).
    { induction m as [|e m IH]; intros q G D1 O; cbn [fold_left]; [unfold papr_signal; rewrite D1, O; reflexivity|]. inversion G as [|? ? G1 G2]; subst.
      apply IH; [exact G2| |]; unfold papr_hear; rewrite D1; destruct e; try destruct G1; assumption. }
    assert (D1 := D before (mkP RX None None) eq_refl). revert D1. generalize (fold_left papr_hear before (mkP RX None None)). intros q D1. apply K; [exact F| |]; unfold papr_hear; rewrite D1; reflexivity.
Qed.
Print Assumptions C107_papr_signal.
Example C107_papr_signal_met : papr_signal (papr_run (mkP RX None None) [Input [ex_sparse]; Input [ex_dense; ex_sparse]; Output ex_sparse]) = Ok ex_dense.
Proof. reflexivity. Qed.

(** Before any data the evaluators of powers and extractors raise RuntimeError; that of the ratio fails with an AttributeError
    because the members it tests do not exist. *)
Theorem C107_papr_early : forall m p es, papr_create m = Ok p ->
  Forall (fun e => match m, e with TX, Output _ | RX, Input _ => False | _, _ => True end) es -> papr_evaluate (papr_run p es) = Raise AttributeError.
Proof.
  intros m p es E F. unfold papr_evaluate. enough (K : papr_signal (papr_run p es) = Raise AttributeError) by (rewrite K; reflexivity).
  unfold papr_run. assert (G : fold_left papr_hear es p = p).
  { assert (D : p_direction p = m) by (destruct m; [injection E as <-; reflexivity..|discriminate]). clear E. induction es as [|e es IH]; [reflexivity|].
    cbn [fold_left]. inversion F as [|? ? F1 F2]; subst. replace (papr_hear p e) with p; [apply IH; exact F2|]. unfold papr_hear.
    destruct (p_direction p), e; try destruct F1; reflexivity. }
  rewrite G. destruct m; [injection E as <-; reflexivity..|discriminate].
Qed.
Print Assumptions C107_papr_early.
Theorem C107_papr_early_refuted : ~ (forall m p, papr_create m = Ok p -> papr_evaluate p = Raise RuntimeError).
Proof. intro H. specialize (H TX _ eq_refl). discriminate H. Qed.
Print Assumptions C107_papr_early_refuted.
Example C107_papr_early_met : papr_create TX = Ok (mkP TX None None) /\ Forall (fun e => match TX, e with TX, Output _ | RX, Input _ => False | _, _ => True end) [Input [ex_dense]].
Proof. split; [reflexivity|repeat constructor]. Qed.

(** ** Extracted signals *)

(** Every artifact at a grid point is kept in order, whatever happens at other points; wrong coordinates are refused. *)
Theorem C107_stash : forall dims ops c, grid_point dims c -> s_at (stash_run dims ops) c = added_at c ops.
Proof. intros dims ops c G. apply stash_contents. exact G. Qed.
Print Assumptions C107_stash.
Theorem C107_stash_refused : forall dims ops c x, ~ grid_point dims c ->
  add_artifact (stash_run dims ops) c x = Raise (if (length c <? length dims)%nat then AttributeError else IndexError).
Proof.
  intros dims ops c x G. unfold add_artifact. rewrite stash_dims. destruct (length c <? length dims)%nat; [reflexivity|].
  destruct (in_grid dims c) eqn:E; [apply in_grid_spec in E; contradiction|reflexivity].
Qed.
Print Assumptions C107_stash_refused.
Example C107_stash_met : grid_point [2; 3]%nat [1; 2]%nat /\ ~ grid_point [2; 3]%nat [2; 0]%nat /\
  added_at [1; 2]%nat [([1; 2]%nat, ex_dense); ([0; 0]%nat, ex_sparse); ([1; 2]%nat, ex_sparse)] = [ex_dense; ex_sparse].
Proof. split; [repeat constructor|]. split; [intro H; inversion H; lia|reflexivity]. Qed.

(** The array has room for the longest list of signals, the most streams and the longest signal, holds every sample of every dense signal at its
    place and zeros everywhere else. *)
Theorem C107_array : forall dims ops, (forall c x, grid_point dims c -> In x (added_at c ops) -> is_dense x) ->
  exists a, to_array (stash_run dims ops) = Ok a /\
    (forall c i x, grid_point dims c -> nth_error (added_at c ops) i = Some x ->
       (i < a_signals a)%nat /\ (num_streams x <= a_streams a)%nat /\ (num_samples x <= a_samples a)%nat) /\
    (forall n, (forall c, grid_point dims c -> (length (added_at c ops) <= n)%nat) -> (a_signals a <= n)%nat) /\
    (forall n, (forall c x, grid_point dims c -> In x (added_at c ops) -> (num_streams x <= n)%nat) -> (a_streams a <= n)%nat) /\
    (forall n, (forall c x, grid_point dims c -> In x (added_at c ops) -> (num_samples x <= n)%nat) -> (a_samples a <= n)%nat) /\
    forall c i r t, grid_point dims c ->
      a_at a c i r t = match nth_error (added_at c ops) i with
                       | Some x => if (r <? num_streams x)%nat && (t <? num_samples x)%nat then sample x r t else RtoC 0
                       | None => RtoC 0
                       end.
Proof.
  intros dims ops D. assert (SD := stash_dims ops dims). assert (SC := fun c G => stash_contents ops dims c G). set (s := stash_run dims ops) in *.
  destruct (to_array_spec s) as (a & E & A1 & A2 & A3 & V).
  { rewrite SD. intros c G. rewrite (SC c G). rewrite List.Forall_forall. intros x I. specialize (D c x G I). destruct x as [d|]; [exists d; reflexivity|destruct D]. }
  rewrite SD in V. exists a. split; [exact E|]. rewrite A1, A2, A3. split; [|split; [|split; [|split]]].
  - intros c i x G N. apply (maxima s c i x); [rewrite SD; exact G|rewrite (SC c G); exact N].
  - intros n B. apply list_max_le. rewrite List.Forall_forall. intros k I. apply in_map_iff in I. destruct I as (l & <- & I). apply in_map_iff in I.
    destruct I as (c & <- & I). apply ndindex_spec in I. rewrite SD in I. rewrite (SC c I). apply B. exact I.
  - intros n B. apply list_max_le. rewrite List.Forall_forall. intros k I. apply in_map_iff in I. destruct I as (x & <- & I). apply in_concat in I. destruct I as (l & I & J).
    apply in_map_iff in I. destruct I as (c & <- & I). apply ndindex_spec in I. rewrite SD in I. rewrite (SC c I) in J. apply (B c); assumption.
  - intros n B. apply list_max_le. rewrite List.Forall_forall. intros k I. apply in_map_iff in I. destruct I as (x & <- & I). apply in_concat in I. destruct I as (l & I & J).
    apply in_map_iff in I. destruct I as (c & <- & I). apply ndindex_spec in I. rewrite SD in I. rewrite (SC c I) in J. apply (B c); assumption.
  - intros c i r t G. rewrite (V c i r t G), (SC c G). destruct (nth_error (added_at c ops) i) as [[d|bs]|] eqn:N; [|exfalso; exact (D c _ G (nth_error_In _ _ N))|reflexivity].
    cbn [num_streams num_samples]. destruct (Nat.ltb_spec r (d_ns d)) as [Lr|Lr]; [|reflexivity]. destruct (Nat.ltb_spec t (length (d_cols d))) as [Lt|Lt]; [|reflexivity]. cbn [andb].
    unfold sample, value. cbn [blocks at_blocks]. unfold at_block. cbn [k_off k_cols Nat.leb]. rewrite Nat.sub_0_r, (nth_error_nth' _ [] Lt). reflexivity.
Qed.
Print Assumptions C107_array.
Example C107_array_met : forall c x, grid_point [2]%nat c -> In x (added_at c [([1]%nat, ex_dense); ([1]%nat, ex_dense); ([0]%nat, ex_dense)]) -> is_dense x.
Proof.
  intros c x _ I. unfold added_at in I. apply in_map_iff in I. destruct I as (o & <- & I). apply filter_In in I. destruct I as [I _].
  destruct I as [<-|[<-|[<-|[]]]]; cbn; repeat constructor.
Qed.
(** A single sparse signal anywhere makes the conversion fail. *)
Theorem C107_array_sparse : forall dims ops c bs, grid_point dims c -> In (Sparse bs) (added_at c ops) -> exists e, to_array (stash_run dims ops) = Raise e.
Proof.
  intros dims ops c bs G I. apply In_nth_error in I. destruct I as (i & N). apply (to_array_sparse _ c i bs); [rewrite stash_dims; exact G|].
  rewrite stash_contents by exact G. exact N.
Qed.
Print Assumptions C107_array_sparse.
Example C107_array_sparse_met : grid_point [2]%nat [1]%nat /\ In (Sparse ex_blocks) (added_at [1]%nat [([1]%nat, ex_dense); ([1]%nat, ex_sparse)]).
Proof. split; [repeat constructor|right; left; reflexivity]. Qed.
