(** C102: corrections of delays and antenna phases, and their estimation. *)
From Coq Require Import List Arith ZArith Lia Reals Lra Bool.
From Coquelicot Require Import Complex.
From Verif Require Import Base BaseLemmas Cplx Cplx_Proofs Corr_Model Corr_Spec Corr_Proofs.
Import ListNotations.
Local Open Scope nat_scope.

(** ** Delays *)
(** Receptions delayed by more than half a sample are moved back: the samples [y] that arrived [k] samples late stand where they belong, the end is zero, other ports are unchanged. *)
Theorem C102_received_delays_are_removed : forall tau ports s y k, (1 / 2 < tau * rate s)%R -> (0 < rate s)%R -> nearest (tau * rate s) (Z.of_nat k) ->
  match ports with Some l => Forall (fun i => i < streams s) l | None => True end -> (forall i j, j < samples s -> at_ s i j = late k y i j) ->
  exists s', correct_receive_delay tau ports s = Ok s' /\ streams s' = streams s /\ samples s' = samples s /\ rate s' = rate s /\ carrier s' = carrier s /\ delay s' = tau /\
    forall i j, j < samples s -> at_ s' i j = if match ports with Some l => if in_dec Nat.eq_dec i l then true else false | None => true end
                                              then if j + k <? samples s then y i j else RtoC 0 else at_ s i j.
Proof.
  intros tau ports s y k Ht Hr Hk Hp Hy. assert (T0 : (0 < tau)%R) by nra. unfold correct_receive_delay. destruct (Rle_dec tau 0); [lra|].
  assert (K : round_even (tau * rate s) = Z.of_nat k) by (apply (nearest_unique (tau * rate s)); [apply round_even_nearest|exact Hk]).
  assert (K1 : 1 <= k) by (pose proof (round_even_pos _ Ht); lia). rewrite K, Nat2Z.id.
  assert (PO : ports_ok ports (streams s) = true). { destruct ports as [l|]; [|reflexivity]. cbn [ports_ok]. apply forallb_forall. intros i Hi. apply Nat.ltb_lt. revert i Hi. apply List.Forall_forall. exact Hp. }
  rewrite PO. cbn [negb]. unfold stop_of, start_of. destruct (Nat.eqb_spec k 0); [lia|]. rewrite Nat.eqb_refl. cbn [orb]. eexists. split; [reflexivity|]. repeat split. cbn [at_].
  intros i j Hj. assert (SEL : selected ports i = match ports with Some l => if in_dec Nat.eq_dec i l then true else false | None => true end).
  { destruct ports as [l|]; [|reflexivity]. cbn [selected]. destruct (in_dec Nat.eq_dec i l) as [I|I]; [apply existsb_exists; exists i; rewrite Nat.eqb_refl; auto|].
    apply Bool.not_true_is_false. intro X. apply existsb_exists in X as (q & Q & E). apply Nat.eqb_eq in E. subst. contradiction. }
  rewrite SEL. destruct (match ports with Some l => _ | None => true end); [|reflexivity].
  destruct (Nat.leb_spec (samples s - k) j); destruct (Nat.ltb_spec (j + k) (samples s)); try lia; try reflexivity. destruct (Nat.ltb_spec j (samples s - k)); [|lia].
  rewrite Hy by lia. unfold late. destruct (Nat.ltb_spec (k + j) k); [lia|]. f_equal. lia.
Qed.
Print Assumptions C102_received_delays_are_removed.
Example C102_received_delays_met : exists s y, (1 / 2 < 1 * rate s)%R /\ (0 < rate s)%R /\ nearest (1 * rate s) (Z.of_nat 2) /\ (forall i j, j < samples s -> at_ s i j = late 2 y i j) /\ y 0 1 <> RtoC 0.
Proof.
  exists (Dense 1 5 (late 2 (fun _ j => RtoC (INR j))) 2 0 0), (fun _ j => RtoC (INR j)). cbn [rate samples at_]. split; [lra|]. split; [lra|]. split.
  - left. replace (1 * 2 - IZR (Z.of_nat 2))%R with 0%R by (cbn; lra). rewrite Rabs_R0. lra.
  - split; [reflexivity|]. apply RtoC_neq. cbn. lra.
Qed.

(** Devices that receive early transmit later by as many samples. *)
Theorem C102_transmissions_are_postponed : forall tau s k, (tau < 0)%R -> nearest (- tau * rate s) (Z.of_nat k) ->
  let s' := correct_transmit_delay tau s in
  streams s' = streams s /\ samples s' = samples s + k /\ rate s' = rate s /\ carrier s' = carrier s /\ delay s' = delay s /\ forall i j, at_ s' i j = late k (at_ s) i j.
Proof.
  intros tau s k Ht Hk. assert (K : round_even (- tau * rate s) = Z.of_nat k) by (apply (nearest_unique (- tau * rate s)); [apply round_even_nearest|exact Hk]).
  unfold correct_transmit_delay. destruct (Rle_dec 0 tau); [lra|]. rewrite K, Nat2Z.id. repeat split.
Qed.
Print Assumptions C102_transmissions_are_postponed.
Example C102_transmissions_met : nearest (- (-3 / 2) * 1) (Z.of_nat 2).
Proof. right. split; [|reflexivity]. replace (- (-3 / 2) * 1 - IZR (Z.of_nat 2))%R with (- (1 / 2))%R by (cbn; lra). rewrite Rabs_Ropp. apply Rabs_right. lra. Qed.

(** Each correction leaves the other direction alone. *)
Theorem C102_other_directions : forall tau ports s, ((0 <= tau)%R -> correct_transmit_delay tau s = s) /\ ((tau <= 0)%R -> correct_receive_delay tau ports s = Ok s).
Proof.
  intros tau ports s. unfold correct_transmit_delay, correct_receive_delay. split; intro H; [destruct (Rle_dec 0 tau)|destruct (Rle_dec tau 0)]; reflexivity || contradiction.
Qed.
Print Assumptions C102_other_directions.

(** Refuted: that delays below half a sample are ignored. Receptions of several samples are refused. *)
Theorem C102_small_delays_refuted : forall tau s, (0 < tau)%R -> (0 < rate s)%R -> (tau * rate s <= 1 / 2)%R -> 2 <= samples s -> correct_receive_delay tau None s = Raise ValueError.
Proof.
  intros tau s Ht Hr Hk Hn. unfold correct_receive_delay. destruct (Rle_dec tau 0); [lra|]. rewrite round_even_zero by (split; [nra|exact Hk]). cbn [Z.to_nat ports_ok negb stop_of Nat.eqb].
  rewrite Nat.sub_0_r. destruct (samples s) as [|[|n0]]; [lia|lia|reflexivity].
Qed.
Print Assumptions C102_small_delays_refuted.
Example C102_small_delays_met : (0 < 1 / 4)%R /\ (1 / 4 * 1 <= 1 / 2)%R.
Proof. lra. Qed.

(** ** Estimated delays *)
(** If the hardware delays the pulse and its gain is above zero, the estimate is the delay, for every number of iterations and ports. *)
Theorem C102_estimates_are_exact : forall trigger tx fs max_delay its wait k g, 1 <= its -> 1 <= tx -> (0 <= wait)%R -> (0 < fs)%R ->
  (1 < truncate (2 * max_delay * fs))%Z -> Z.to_nat (truncate (max_delay * fs)) + k < Z.to_nat (truncate (2 * max_delay * fs)) -> above_zero g ->
  (forall it x, it < its -> trigger it x = map (echo k g) x) ->
  estimate_delay trigger tx fs max_delay its wait None None = Ok (INR k / fs)%R.
Proof.
  intros trigger tx fs md its wait k g Hi Ht Hw Hf Hn Hk Hg HT. rewrite (estimate_constant _ _ _ _ _ _ _ _ (Z.to_nat (truncate (md * fs)) + k)); try assumption; [|reflexivity|].
  - rewrite plus_INR. f_equal. field. lra.
  - intros it Hit. cbn [rows_of]. eexists. split; [reflexivity|]. rewrite HT by exact Hit. rewrite dirac_rows. set (n := Z.to_nat (truncate (2 * md * fs))) in *. set (m := Z.to_nat (truncate (md * fs))) in *.
    destruct tx as [|tx]; [lia|]. cbn [repeat map concat]. rewrite echo_dirac by exact Hk. rewrite <- app_assoc. cbn [app]. destruct (above_less g Hg) as [G1 G2]. apply argmax_found; [exact G1|].
    apply List.Forall_app. split.
    + apply List.Forall_forall. intros x Hx. apply repeat_spec in Hx. subst x. exact G2.
    + apply List.Forall_forall. intros x Hx. apply in_concat in Hx as (row & R1 & R2). apply in_map_iff in R1 as (row' & <- & R1). apply repeat_spec in R1. subst row'. rewrite echo_dirac in R2 by exact Hk.
      apply in_app_or in R2 as [R2|[R2|R2]]; [apply repeat_spec in R2; subst; exact G2|subst; apply cless_irrefl|apply repeat_spec in R2; subst; exact G2].
Qed.
Print Assumptions C102_estimates_are_exact.
Example C102_estimates_met : (1 < truncate (2 * 2 * 1))%Z /\ Z.to_nat (truncate (2 * 1)) + 1 < Z.to_nat (truncate (2 * 2 * 1)) /\ above_zero (1, -3)%R.
Proof.
  rewrite !truncate_nonneg by lra. replace (2 * 2 * 1)%R with (IZR 4) by lra. replace (2 * 1)%R with (IZR 2) by lra.
  assert (I : forall z, Int_part (IZR z) = z). { intro z. pose proof (Int_part_bounds (IZR z)) as [A B]. rewrite <- plus_IZR in B. apply le_IZR in A. apply lt_IZR in B. lia. }
  rewrite !I. split; [lia|]. split; [cbn; lia|]. left. cbn. lra.
Qed.

(** Refuted: that the phase of the hardware does not matter. If it turns the pulse below zero, the estimate is a negative delay that does not depend on the true one. *)
Theorem C102_turned_pulses_refuted : forall trigger tx fs max_delay its wait k g, 1 <= its -> 1 <= tx -> (0 <= wait)%R -> (0 < fs)%R ->
  (1 < truncate (2 * max_delay * fs))%Z -> Z.to_nat (truncate (max_delay * fs)) + k < Z.to_nat (truncate (2 * max_delay * fs)) -> below_zero g ->
  (forall it x, it < its -> trigger it x = map (echo k g) x) ->
  estimate_delay trigger tx fs max_delay its wait None None = Ok (- INR (Z.to_nat (truncate (max_delay * fs))) / fs)%R /\ (- INR (Z.to_nat (truncate (max_delay * fs))) / fs < 0)%R.
Proof.
  intros trigger tx fs md its wait k g Hi Ht Hw Hf Hn Hk Hg HT. pose proof Hn as W. rewrite Rmult_assoc in W. apply window in W as (_ & W & _).
  split.
  - rewrite (estimate_constant _ _ _ _ _ _ _ _ 0); try assumption; [|reflexivity|].
    + cbn [INR]. f_equal. field. lra.
    + intros it Hit. cbn [rows_of]. eexists. split; [reflexivity|]. rewrite HT by exact Hit. rewrite dirac_rows. set (n := Z.to_nat (truncate (2 * md * fs))) in *. set (m := Z.to_nat (truncate (md * fs))) in *.
      assert (M : 1 <= m) by (unfold m; lia). destruct tx as [|tx]; [lia|]. cbn [repeat map concat]. rewrite echo_dirac by exact Hk. destruct (below_less g Hg) as [_ G2].
      assert (A : Forall (fun x => cless (RtoC 0) x = false) (repeat (RtoC 0) (m + k) ++ g :: repeat (RtoC 0) (n - m - k - 1))).
      { apply List.Forall_app. split; [|constructor; [exact G2|]]; apply List.Forall_forall; intros x Hx; apply repeat_spec in Hx; subst; apply cless_irrefl. }
      assert (B : Forall (fun x => cless (RtoC 0) x = false) (concat (map (echo k g) (repeat (map (fun j => if j =? m then RtoC 1 else RtoC 0) (seq 0 n)) tx)))).
      { apply List.Forall_forall. intros x Hx. apply in_concat in Hx as (row & R1 & R2). apply in_map_iff in R1 as (row' & <- & R1). apply repeat_spec in R1. subst row'. rewrite echo_dirac in R2 by exact Hk. revert x R2. apply List.Forall_forall. exact A. }
      destruct m as [|m']; [lia|]. cbn [Nat.add repeat app] in A |- *. inversion A; subst. apply argmax_first. apply List.Forall_app. split; assumption.
  - apply Rmult_lt_reg_r with fs; [exact Hf|]. unfold Rdiv. rewrite Rmult_assoc, Rinv_l, Rmult_0_l, Rmult_1_r by lra. assert (Q : (0 < INR (Z.to_nat (truncate (md * fs))))%R) by (apply lt_0_INR; lia). lra.
Qed.
Print Assumptions C102_turned_pulses_refuted.
Example C102_turned_pulses_met : below_zero (-1, 0)%R.
Proof. left. cbn. lra. Qed.

(** Refuted: that any port may hear the pulse best. If the second of two receiving ports does, the estimate is too large by the length of the window. *)
Theorem C102_stronger_ports_refuted : forall trigger tx fs max_delay its wait k g g', 1 <= its -> 1 <= tx -> (0 <= wait)%R -> (0 < fs)%R ->
  (1 < truncate (2 * max_delay * fs))%Z -> Z.to_nat (truncate (max_delay * fs)) + k < Z.to_nat (truncate (2 * max_delay * fs)) -> (0 <= g < g')%R ->
  (forall it x, it < its -> trigger it x = [echo k (RtoC g) (hd [] x); echo k (RtoC g') (hd [] x)]) ->
  estimate_delay trigger tx fs max_delay its wait None None = Ok ((INR k + INR (Z.to_nat (truncate (2 * max_delay * fs)))) / fs)%R.
Proof.
  intros trigger tx fs md its wait k g g' Hi Ht Hw Hf Hn Hk Hg HT. set (n := Z.to_nat (truncate (2 * md * fs))) in *. set (m := Z.to_nat (truncate (md * fs))) in *.
  rewrite (estimate_constant _ _ _ _ _ _ _ _ (n + (m + k))); try assumption; [|reflexivity|].
  - fold m. rewrite !plus_INR. f_equal. field. lra.
  - fold n m. intros it Hit. cbn [rows_of]. eexists. split; [reflexivity|]. rewrite HT by exact Hit. rewrite dirac_rows. destruct tx as [|tx]; [lia|]. cbn [repeat hd concat]. rewrite !echo_dirac by exact Hk. rewrite app_nil_r.
    assert (C0 : forall a b, (a < b)%R -> cless (RtoC a) (RtoC b) = true). { intros a b H. unfold cless, RtoC. cbn [fst snd]. destruct (Rlt_dec a b); [reflexivity|contradiction]. }
    assert (C1 : forall a b, (b <= a)%R -> cless (RtoC a) (RtoC b) = false). { intros a b H. unfold cless, RtoC. cbn [fst snd]. destruct (Rlt_dec a b); [lra|]. destruct (Rlt_dec b a); [reflexivity|]. destruct (Rlt_dec 0 0); [lra|reflexivity]. }
    assert (GEN : forall l t, l <> [] -> Forall (fun x => cless x (RtoC g') = true /\ exists r, x = RtoC r /\ (r <= g)%R) l -> Forall (fun x => cless (RtoC g') x = false) t -> argmax (l ++ RtoC g' :: t) = Ok (length l)).
    { intros l t NE L T. destruct l as [|x0 l]; [contradiction|]. inversion L as [|? ? [LX _] L']; subst. cbn [app argmax length]. f_equal.
      assert (GO : forall l best b i, Forall (fun x => cless x (RtoC g') = true /\ exists r, x = RtoC r /\ (r <= g)%R) l -> cless best (RtoC g') = true -> argmax_from best b i (l ++ RtoC g' :: t) = length l + i).
      { clear - T. induction l as [|x l IH]; intros best b i L X; cbn [app argmax_from length Nat.add].
        - rewrite X. apply argmax_from_skip. exact T.
        - inversion L as [|? ? [LX _] L']; subst. destruct (cless best x); rewrite IH by assumption; lia. }
      rewrite GO by assumption. lia. }
    rewrite app_assoc. rewrite GEN.
    + f_equal. rewrite !app_length. cbn [length]. rewrite !repeat_length. lia.
    + destruct (repeat (RtoC 0) (m + k)); discriminate.
    + assert (Z0 : forall q, Forall (fun x => cless x (RtoC g') = true /\ exists r, x = RtoC r /\ (r <= g)%R) (repeat (RtoC 0) q)).
      { intro q. apply List.Forall_forall. intros x Hx. apply repeat_spec in Hx. subst. split; [apply C0; lra|exists 0%R; split; [reflexivity|lra]]. }
      apply List.Forall_app. split; [|apply Z0]. apply List.Forall_app. split; [apply Z0|]. constructor; [|apply Z0]. split; [apply C0; lra|exists g; split; [reflexivity|lra]].
    + apply List.Forall_forall. intros x Hx. apply repeat_spec in Hx. subst. apply C1. lra.
Qed.
Print Assumptions C102_stronger_ports_refuted.

(** ** Antenna weights *)
(** The weights estimated against an ideal reference cancel the phases [t n] of the transmitting ports: corrected ports have the expected phases. *)
Theorem C102_transmit_phases_are_aligned : forall expected probes num tx rx rho (t : nat -> C) n, 0 < num -> 0 < rx -> n < tx -> (0 < rho)%R ->
  (forall m, Cmod (expected n m) = 1%R) -> t n <> RtoC 0 -> (forall m q, probes n m q = RtoC rho * t n * expected n m)%C ->
  (nth n (transmit_weights expected (response probes num) tx rx) (RtoC 0) * t n = RtoC (Cmod (t n)))%C.
Proof.
  intros expected probes num tx rx rho t n Hnum Hrx Hn Hr HE HT HP. unfold transmit_weights.
  match goal with |- (nth n (map ?f _) _ * _ = _)%C => rewrite (nth_indep _ (RtoC 0) (f 0)) by (rewrite map_length, seq_length; exact Hn); rewrite (map_nth f) end. rewrite seq_nth by exact Hn. cbn [Nat.add].
  assert (CT : (0 < Cmod (t n))%R) by (apply Cmod_gt_0; exact HT).
  assert (E0 : forall m, expected n m <> RtoC 0). { intros m E. specialize (HE m). rewrite E, Cmod_0 in HE. lra. }
  rewrite (mean_const _ (RtoC (Cmod (t n)) / t n)%C rx Hrx).
  - field. exact HT.
  - intros m _. unfold correction, response. rewrite (mean_const _ (RtoC rho * t n * expected n m)%C num Hnum).
    + rewrite !Cmod_mult, HE, Rmult_1_r, Cmod_R, Rabs_right by lra. rewrite RtoC_mult. assert (T1 : RtoC (Cmod (t n)) <> RtoC 0) by (apply RtoC_neq; lra). assert (T2 : RtoC rho <> RtoC 0) by (apply RtoC_neq; lra). specialize (E0 m). field. repeat split; assumption.
    + intros q _. rewrite HP. field. apply RtoC_neq. lra.
Qed.
Print Assumptions C102_transmit_phases_are_aligned.
Example C102_phases_met : Cmod (RtoC 1) = 1%R /\ Ci <> RtoC 0.
Proof. split; [rewrite Cmod_1; reflexivity|]. intro H. injection H as H. lra. Qed.

Theorem C102_receive_phases_are_aligned : forall expected probes num tx rx rho (r : nat -> C) m, 0 < num -> 0 < tx -> m < rx -> (0 < rho)%R ->
  (forall n, Cmod (expected n m) = 1%R) -> r m <> RtoC 0 -> (forall n q, probes n m q = RtoC rho * r m * expected n m)%C ->
  (nth m (receive_weights expected (response probes num) tx rx) (RtoC 0) * r m = RtoC (Cmod (r m)))%C.
Proof.
  intros expected probes num tx rx rho r m Hnum Htx Hm Hr HE HT HP. unfold receive_weights.
  match goal with |- (nth m (map ?f _) _ * _ = _)%C => rewrite (nth_indep _ (RtoC 0) (f 0)) by (rewrite map_length, seq_length; exact Hm); rewrite (map_nth f) end. rewrite seq_nth by exact Hm. cbn [Nat.add].
  assert (CT : (0 < Cmod (r m))%R) by (apply Cmod_gt_0; exact HT).
  assert (E0 : forall n, expected n m <> RtoC 0). { intros n E. specialize (HE n). rewrite E, Cmod_0 in HE. lra. }
  rewrite (mean_const _ (RtoC (Cmod (r m)) / r m)%C tx Htx).
  - field. exact HT.
  - intros n _. unfold correction, response. rewrite (mean_const _ (RtoC rho * r m * expected n m)%C num Hnum).
    + rewrite !Cmod_mult, HE, Rmult_1_r, Cmod_R, Rabs_right by lra. rewrite RtoC_mult. assert (T1 : RtoC (Cmod (r m)) <> RtoC 0) by (apply RtoC_neq; lra). assert (T2 : RtoC rho <> RtoC 0) by (apply RtoC_neq; lra). specialize (E0 n). field. repeat split; assumption.
    + intros q _. rewrite HP. field. apply RtoC_neq. lra.
Qed.
Print Assumptions C102_receive_phases_are_aligned.

(** Refuted: that the phases of the reference do not matter. If half of its ports are inverted, all weights vanish. *)
Theorem C102_inverted_references_refuted : forall expected measured tx n, n < tx -> (forall m, Cmod (expected n m) = 1%R) -> measured n 0 = expected n 0 -> measured n 1 = (- expected n 1)%C ->
  nth n (transmit_weights expected measured tx 2) (RtoC 1) = RtoC 0.
Proof.
  intros expected measured tx n Hn HE H0 H1. unfold transmit_weights.
  match goal with |- nth n (map ?f _) _ = _ => rewrite (nth_indep _ (RtoC 1) (f 0)) by (rewrite map_length, seq_length; exact Hn); rewrite (map_nth f) end. rewrite seq_nth by exact Hn. cbn [Nat.add].
  assert (E0 : forall m, expected n m <> RtoC 0). { intros m E. specialize (HE m). rewrite E, Cmod_0 in HE. lra. }
  unfold mean, correction. cbn [csum]. rewrite H0, H1, Cmod_opp, !HE. assert (I : INR 2 = 2%R) by (cbn; lra). rewrite I. pose proof (E0 0). pose proof (E0 1). field.
  repeat split; try assumption; try (apply RtoC_neq; lra). intro Z. apply H2. replace (expected n 1) with (- - expected n 1)%C by ring. rewrite Z. ring.
Qed.
Print Assumptions C102_inverted_references_refuted.

(** Corrections need one weight for each port, and then scale each port. *)
Theorem C102_weights_scale_ports : forall w s,
  (length w = streams s -> exists s', correct_ports w s = Ok s' /\ streams s' = streams s /\ samples s' = samples s /\ forall i j, at_ s' i j = (nth i w (RtoC 0) * at_ s i j)%C) /\
  (length w <> streams s -> correct_ports w s = Raise ValueError).
Proof.
  intros w s. unfold correct_ports. split; intro H; destruct (Nat.eqb_spec (streams s) (length w)); try congruence; [|reflexivity]. cbn [negb]. eexists. split; [reflexivity|]. repeat split.
Qed.
Print Assumptions C102_weights_scale_ports.

(** Refuted: that triggering a signal again sends the same samples. The caller's samples are overwritten, so that the n-th transmission is weighted n times. *)
Theorem C102_repeated_triggers_refuted : forall fs fc w hardware leak n s, rate s = fs -> carrier s = fc -> length w = streams s -> (forall a b, exists c, leak a b = Ok c) ->
  exists s', again n (fun x => do p <- trigger_direct fs fc (Some w) leak hardware true x; Ok (snd p)) s = Ok s' /\
    rate s' = fs /\ carrier s' = fc /\ streams s' = streams s /\ forall i j, at_ s' i j = (power (nth i w (RtoC 0)) n * at_ s i j)%C.
Proof.
  intros fs fc w hardware leak n s HR HC HW HL. induction n as [|n (s' & E & R1 & R2 & R3 & R4)].
  - exists s. cbn [again]. repeat split; try assumption. intros i j. cbn [power]. ring.
  - cbn [again]. rewrite E. cbn [bind]. unfold trigger_direct. destruct (Req_EM_T (carrier s') fc); [|contradiction]. destruct (Req_EM_T (rate s') fs); [|contradiction].
    unfold correct_ports. destruct (Nat.eqb_spec (streams s') (length w)); [|congruence]. cbn [negb bind].
    match goal with |- context [leak ?a ?b] => destruct (HL a b) as [c ->] end. cbn [bind snd]. eexists. split; [reflexivity|]. cbn [rate carrier streams at_]. repeat split; try assumption.
    intros i j. rewrite R4. cbn [power]. ring.
Qed.
Print Assumptions C102_repeated_triggers_refuted.
Example C102_repeated_triggers_met : length [RtoC 2; Ci] = streams (Dense 2 1 (fun _ _ => RtoC 1) 1 0 0).
Proof. reflexivity. Qed.
