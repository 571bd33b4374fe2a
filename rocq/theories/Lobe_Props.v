(** C115: sidelobe levels and self-interference of simulated devices. *)
From Coq Require Import List Reals Lra Lia Bool Arith Psatz.
From Coquelicot Require Import Complex.
From Verif Require Import Base BaseLemmas Cplx Cplx_Proofs Rot_Model Rot_Spec Rot_Proofs Ant_Model Ant_Spec Ant_Proofs Beam_Model Beam_Spec Beam_Proofs Lobe_Model Lobe_Spec Lobe_Proofs.
Import ListNotations.
Open Scope R_scope.

(** Examples: antennas on a line along x or z, in wavelengths *)
Definition lam : R := speed_of_light.
Lemma lam_phase : forall x, 2 * PI * lam * x / speed_of_light = 2 * PI * x.
Proof. intros. unfold lam. field. unfold speed_of_light. lra. Qed.
Definition along_x (m : mode) (l : list R) : array := mkArray no_transformation (map (fun x => A m Ideal (mkT eye (V x 0 0))) l).
Definition along_z (m : mode) (l : list R) : array := mkArray no_transformation (map (fun z => A m Ideal (mkT eye (V 0 0 z))) l).
Lemma rigid_line : forall m l, rigid (base (along_x m l)) /\ rigid (base (along_z m l)).
Proof. intros m l. assert (H : rigid no_transformation) by (unfold rigid, no_transformation; cbn [rotation]; split; [apply mat_eq|]; unfold eye; comps; ring). split; exact H. Qed.
Lemma cis_PI : cis PI = (- RtoC 1)%C.
Proof. unfold cis. rewrite cos_PI, sin_PI. unfold RtoC, Copp. cbn. f_equal; lra. Qed.

(** After any history of receptions, transmissions and reconfigurations, an evaluation concerns the last signal of the configured kind, the configured focus
    and the codebook of the construction; without such a signal, and in duplex mode, it is refused *)
Theorem C115_latest : forall arr carrier m f codebook h e, make_evaluator arr carrier m f codebook = Ok e ->
  evaluate arr carrier (fold_left notify h e) =
  match last_mode h m with
  | TX => match last_transmitted h None with
          | Some x => evaluate arr carrier (Evaluator TX (last_focus h f) (e_codebook e) None (Some x))
          | None => Raise RuntimeError
          end
  | RX => match last_received h None with
          | Some x => evaluate arr carrier (Evaluator RX (last_focus h f) (e_codebook e) (Some x) None)
          | None => Raise RuntimeError
          end
  | DUPLEX => Raise RuntimeError
  end.
Proof.
  intros arr carrier m f codebook h e He. unfold make_evaluator in He. apply bind_ok in He. destruct He as [c [_ E]]. injection E as <-.
  rewrite notify_all. cbn [e_mode e_focus e_codebook e_input e_output]. unfold evaluate. cbn [e_mode e_focus e_codebook e_input e_output].
  destruct (last_mode h m); [destruct (last_transmitted h None)|destruct (last_received h None)|]; reflexivity.
Qed.
Print Assumptions C115_latest.
Example C115_latest_met : make_evaluator (along_x TX [0; 1]) lam TX (Spherical 0 0) (Some [[RtoC 1; RtoC 1]]) = Ok (Evaluator TX (Spherical 0 0) [[RtoC 1; RtoC 1]] None None) /\
  last_transmitted [Transmitted [[[RtoC 1]; [RtoC 2]]]; Received []; Transmitted [[[RtoC 3]; [RtoC 4]]]; SetFocus (Spherical 1 1)] None = Some [[[RtoC 3]; [RtoC 4]]].
Proof. split; reflexivity. Qed.

(** The focus power is the energy a distant observer in the direction of the focus gets from the array, the k-th power that of the k-th row of weights, both relative
    to the energy fed to the antennas; the artifact divides the former by the sum of the latter *)
Theorem C115_pattern : forall arr carrier e v n x, rigid (base arr) -> aimed arr (e_focus e) v ->
  (e_mode e = TX /\ e_output e = Some x \/ e_mode e = RX /\ e_input e = Some x) ->
  n = length (select (e_mode e) (antennas arr)) -> fits n x -> Forall (fun w => length w = n) (e_codebook e) -> total_energy x <> 0 ->
  exists r, evaluate arr carrier e = Ok r /\ focus_power r = Some (pattern arr carrier (e_mode e) v x / total_energy x) /\
  length (powers r) = length (e_codebook e) /\
  (forall k w, nth_error (e_codebook e) k = Some w -> nth_error (powers r) k = Some (Some (weighted_energy w x / total_energy x))) /\
  forall s, s = fold_right (fun w t => weighted_energy w x + t) 0 (e_codebook e) -> s <> 0 -> artifact r = Some (pattern arr carrier (e_mode e) v x / s).
Proof.
  intros arr carrier e v n x Hb Hf Hm Hn Hx Hc Ht. eexists. split; [apply (evaluate_spec arr carrier e v n x); assumption|].
  cbn [powers focus_power]. split; [reflexivity|]. split; [apply map_length|]. split; [intros k w Hk; rewrite nth_error_map, Hk; reflexivity|].
  intros s Hs Hs0. unfold artifact. cbn [powers focus_power].
  rewrite <- (map_map (fun w => weighted_energy w x / total_energy x) Some), nan_sum_some.
  assert (E : add_up (map (fun w => weighted_energy w x / total_energy x) (e_codebook e)) = s / total_energy x).
  { subst s. clear - Ht. induction (e_codebook e) as [|w c IH]; cbn [map add_up fold_right]; [field; exact Ht|]. unfold add_up in IH. rewrite IH. field. exact Ht. }
  rewrite E, ratio_some; [f_equal; field; split; assumption|]. unfold Rdiv. apply Rmult_integral_contrapositive_currified; [exact Hs0|apply Rinv_neq_0_compat; exact Ht].
Qed.
Print Assumptions C115_pattern.
Example C115_pattern_met : let arr := along_x TX [0; 1/2] in let x := [[[RtoC 1]; [RtoC 1]]] in
  let e := Evaluator TX (Spherical 0 0) [[RtoC 1; RtoC 1]; [RtoC 1; RtoC (-1)]] None (Some x) in
  rigid (base arr) /\ aimed arr (e_focus e) (V 0 0 1) /\ length (select TX (antennas arr)) = 2%nat /\ fits 2 x /\ Forall (fun w => length w = 2%nat) (e_codebook e) /\
  total_energy x = 2 /\ fold_right (fun w t => weighted_energy w x + t) 0 (e_codebook e) = 4.
Proof.
  cbv zeta. split; [apply rigid_line|]. split; [cbn [e_focus aimed]; rewrite sin_0, cos_0; f_equal; ring|]. split; [reflexivity|].
  split; [constructor; [split; [reflexivity|repeat constructor]|constructor]|]. split; [repeat constructor|].
  unfold total_energy, weighted_energy, over_blocks, energy, radiated, width, at2, at0. cbn [length nth rsum csum fold_right e_codebook].
  assert (H1 : forall r, Cmod (RtoC r) ^ 2 = r ^ 2) by (intros r; rewrite Cmod_R, RPow_abs, Rabs_right; [reflexivity|apply Rle_ge, pow2_ge_0]).
  split; [rewrite !H1; ring|].
  replace (RtoC 0 + RtoC 1 * RtoC 1 + RtoC 1 * RtoC 1)%C with (RtoC 2) by (unfold RtoC, Cplus, Cmult; cbn; f_equal; ring).
  replace (RtoC 0 + RtoC 1 * RtoC 1 + RtoC (-1) * RtoC 1)%C with (RtoC 0) by (unfold RtoC, Cplus, Cmult; cbn; f_equal; ring).
  rewrite !H1. ring.
Qed.

(** The default codebook: one row of ones, then 2 n azimuths for each of n - 1 zeniths up to the south pole *)
Theorem C115_codebook : forall arr carrier m f, rigid (base arr) -> m = TX \/ m = RX ->
  exists e, make_evaluator arr carrier m f None = Ok e /\
  let n := length (select m (antennas arr)) in
  length (e_codebook e) = (1 + (n - 1) * (2 * n))%nat /\ nth_error (e_codebook e) 0 = Some (repeat (RtoC 1) n) /\
  Forall (fun w => length w = n) (e_codebook e) /\
  forall i j, (i < n - 1)%nat -> (j < 2 * n)%nat -> nth_error (e_codebook e) (1 + i * (2 * n) + j) = Some (wavefront arr carrier (ring n (S i) j) m).
Proof.
  intros arr carrier m f Hb Hm. destruct (codebook_spec arr carrier m Hb Hm) as [c [E H]]. exists (Evaluator m f c None None).
  split; [unfold make_evaluator; rewrite E; reflexivity|]. exact H.
Qed.
Print Assumptions C115_codebook.
Example C115_codebook_met : rigid (base (along_x RX [0; 1/2; 1])) /\ length (select RX (antennas (along_x RX [0; 1/2; 1]))) = 3%nat.
Proof. split; [apply rigid_line|reflexivity]. Qed.

(** Its first row is the north pole if the antennas lie in the horizontal plane of the array *)
Theorem C115_first_row : forall arr carrier m, (forall a, In a (select m (antennas arr)) -> vz (translation (apose a)) = 0) ->
  repeat (RtoC 1) (length (select m (antennas arr))) = wavefront arr carrier (V 0 0 1) m.
Proof.
  intros arr carrier m H. unfold wavefront. induction (select m (antennas arr)) as [|a l IH]; [reflexivity|]. cbn [length repeat map].
  rewrite IH by (intros b Hb; apply H; right; exact Hb). f_equal. unfold dot. cbn [vx vy vz]. rewrite (H a) by (left; reflexivity).
  symmetry. rewrite <- cis_0. f_equal. unfold Rdiv. ring.
Qed.
Print Assumptions C115_first_row.
Example C115_first_row_met : forall a, In a (select TX (antennas (along_x TX [0; 1/2]))) -> vz (translation (apose a)) = 0.
Proof. intros a H. cbn in H. destruct H as [<-|[<-|[]]]; reflexivity. Qed.
(** Otherwise it may miss everything that is radiated towards the north pole *)
Theorem C115_first_row_refuted : exists arr carrier e x, rigid (base arr) /\ make_evaluator arr carrier TX (Spherical 0 0) None = Ok e /\ total_energy x <> 0 /\
  pattern arr carrier TX (V 0 0 1) x = 2 * total_energy x /\
  exists w, nth_error (e_codebook e) 0 = Some w /\ weighted_energy w x = 0.
Proof.
  set (arr := along_z TX [0; 1/2]). exists arr, lam. destruct (C115_codebook arr lam TX (Spherical 0 0) (proj2 (rigid_line TX _)) (or_introl eq_refl)) as [e [He [_ [H0 _]]]].
  exists e, [[[RtoC 1]; [RtoC (-1)]]]. split; [apply rigid_line|]. split; [exact He|].
  assert (H1 : forall r, Cmod (RtoC r) ^ 2 = r ^ 2) by (intros r; rewrite Cmod_R, RPow_abs, Rabs_right; [reflexivity|apply Rle_ge, pow2_ge_0]).
  assert (Ht : total_energy [[[RtoC 1]; [RtoC (-1)]]] = 2).
  { unfold total_energy, over_blocks, energy, width, at2, at0. cbn [length nth rsum]. rewrite !H1. ring. }
  split; [rewrite Ht; lra|]. split.
  - rewrite Ht. unfold pattern, wavefront, weighted_energy, over_blocks, energy, radiated, width, at2, at0.
    cbn [arr along_z antennas map select filter amode mode_eqb negb apose translation length nth rsum csum]. rewrite !lam_phase. unfold dot. cbn [vx vy vz].
    replace (2 * PI * (0 * 0 + 0 * 0 + 1 * 0)) with 0 by ring. replace (2 * PI * (0 * 0 + 0 * 0 + 1 * (1 / 2))) with PI by field. rewrite cis_0, cis_PI.
    replace (RtoC 0 + RtoC 1 * RtoC 1 + - RtoC 1 * RtoC (-1))%C with (RtoC 2) by (unfold RtoC, Cplus, Cmult, Copp; cbn; f_equal; ring). rewrite H1. ring.
  - exists (repeat (RtoC 1) 2). split; [exact H0|]. unfold weighted_energy, over_blocks, energy, radiated, width, at2, at0. cbn [repeat length nth rsum csum].
    replace (RtoC 0 + RtoC 1 * RtoC 1 + RtoC 1 * RtoC (-1))%C with (RtoC 0) by (unfold RtoC, Cplus, Cmult; cbn; f_equal; ring). rewrite H1. ring.
Qed.
Print Assumptions C115_first_row_refuted.
(** The last 2 n rows are all the south pole: whatever is radiated there counts 2 n times in the artifact *)
Theorem C115_pole_repeated : forall arr carrier m f e, rigid (base arr) -> m = TX \/ m = RX -> make_evaluator arr carrier m f None = Ok e ->
  let n := length (select m (antennas arr)) in (2 <= n)%nat ->
  forall j, (j < 2 * n)%nat -> nth_error (e_codebook e) (1 + (n - 2) * (2 * n) + j) = Some (wavefront arr carrier (V 0 0 (-1)) m).
Proof.
  intros arr carrier m f e Hb Hm He n Hn j Hj. destruct (C115_codebook arr carrier m f Hb Hm) as [e' [He' [_ [_ [_ H]]]]].
  rewrite He in He'. injection He' as <-. rewrite H by lia. fold n. replace (S (n - 2)) with (n - 1)%nat by lia. rewrite south_pole by exact Hn. reflexivity.
Qed.
Print Assumptions C115_pole_repeated.
Example C115_pole_repeated_met : exists e, make_evaluator (along_x TX [0; 1/2]) lam TX (Spherical 0 0) None = Ok e /\ length (select TX (antennas (along_x TX [0; 1/2]))) = 2%nat.
Proof. destruct (C115_codebook (along_x TX [0; 1/2]) lam TX (Spherical 0 0) (proj1 (rigid_line TX _)) (or_introl eq_refl)) as [e [He _]]. exists e. split; [exact He|reflexivity]. Qed.

(** With the default codebook no power exceeds the number of antennas *)
Theorem C115_bound : forall arr carrier m f e h v x r, rigid (base arr) -> m = TX \/ m = RX -> make_evaluator arr carrier m f None = Ok e ->
  last_mode h m = m -> aimed arr (last_focus h f) v -> (m = TX /\ last_transmitted h None = Some x \/ m = RX /\ last_received h None = Some x) ->
  fits (length (select m (antennas arr))) x -> total_energy x <> 0 -> evaluate arr carrier (fold_left notify h e) = Ok r ->
  forall p, In p (focus_power r :: powers r) -> exists q, p = Some q /\ 0 <= q <= INR (length (select m (antennas arr))).
Proof.
  intros arr carrier m f e h v x r Hb Hm He Hmode Hf Hx Hfit Ht Hr p Hp. destruct (codebook_spec arr carrier m Hb Hm) as [c [Ec [Lc [C0 [Cw Cr]]]]].
  unfold make_evaluator in He. rewrite Ec in He. injection He as <-. rewrite notify_all in Hr. cbn [e_mode e_focus e_codebook e_input e_output] in Hr. rewrite Hmode in Hr.
  set (n := length (select m (antennas arr))) in *.
  assert (Hpos : 0 < total_energy x) by (pose proof (total_pos x); lra).
  assert (K : forall w, length w = n -> (forall k, (k < length w)%nat -> Cmod (at0 w k) = 1) -> 0 <= weighted_energy w x / total_energy x <= INR n).
  { intros w Hl Hu. pose proof (weighted_pos w x) as P. pose proof (over_blocks_bound w n x Hu Hl Hfit) as Q. split; [apply Rmult_le_pos; [exact P|apply Rlt_le, Rinv_0_lt_compat; exact Hpos]|].
    apply Rmult_le_reg_r with (total_energy x); [exact Hpos|]. unfold Rdiv. rewrite Rmult_assoc, Rinv_l by exact Ht. lra. }
  rewrite (evaluate_spec arr carrier _ v n x) in Hr; cbn [e_mode e_focus e_codebook e_input e_output]; try assumption; try reflexivity.
  injection Hr as <-. cbn [powers focus_power e_codebook e_mode] in Hp. destruct Hp as [<-|Hp].
  - eexists. split; [reflexivity|]. unfold pattern. apply K; [apply length_wavefront|apply wavefront_unit].
  - apply in_map_iff in Hp. destruct Hp as [w [<- Hw]]. eexists. split; [reflexivity|]. rewrite Forall_forall in Cw. apply K; [apply Cw; exact Hw|].
    apply In_nth_error in Hw. destruct Hw as [q Hq]. destruct q as [|q].
    + rewrite C0 in Hq. injection Hq as <-. rewrite repeat_length. intros k Hk. unfold at0. rewrite (nth_indep _ (RtoC 0) (RtoC 1)) by (rewrite repeat_length; exact Hk). rewrite nth_repeat. apply Cmod_1.
    + assert (Hql : (S q < length c)%nat) by (apply nth_error_Some; rewrite Hq; discriminate). rewrite Lc in Hql.
      assert (Hn : (2 * n <> 0)%nat) by nia. pose proof (Nat.div_mod q (2 * n) Hn) as D. pose proof (Nat.mod_upper_bound q (2 * n) Hn) as U.
      rewrite <- (Nat.add_1_l q), D in Hq. replace (1 + (2 * n * (q / (2 * n)) + q mod (2 * n)))%nat with (1 + q / (2 * n) * (2 * n) + q mod (2 * n))%nat in Hq by lia.
      rewrite Cr in Hq; [injection Hq as <-; apply wavefront_unit| |exact U]. apply Nat.div_lt_upper_bound; [exact Hn|]. nia.
Qed.
Print Assumptions C115_bound.
Example C115_bound_met : let arr := along_x RX [0; 1/4] in let x := [arriving [RtoC 1; RtoC 1] [RtoC 1]] in
  aimed arr (last_focus [Received x; SetFocus (Coordinate (V 1 0 0) Local)] (Spherical 0 0)) (V 1 0 0) /\
  last_received [Received x; SetFocus (Coordinate (V 1 0 0) Local)] None = Some x /\ fits 2 x /\ total_energy x <> 0.
Proof.
  cbv zeta. split; [split; [apply norm_one; comps; ring|reflexivity]|]. split; [reflexivity|]. split; [apply (fits_arriving [RtoC 1; RtoC 1]); cbn; lia|].
  rewrite total_arriving; [|intros n Hn; destruct n as [|[|n]]; [apply Cmod_1|apply Cmod_1|cbn in Hn; lia]|cbn; lia].
  unfold energy. cbn [length rsum at0 nth]. rewrite Cmod_1. cbn [INR]. lra.
Qed.
(** Amplifying the signal changes nothing *)
Theorem C115_scale : forall arr carrier m f e h v x k, rigid (base arr) -> m = TX \/ m = RX -> make_evaluator arr carrier m f None = Ok e ->
  last_mode h m = m -> aimed arr (last_focus h f) v -> fits (length (select m (antennas arr))) x -> total_energy x <> 0 -> k <> RtoC 0 ->
  let sent y := match m with TX => Transmitted y | _ => Received y end in
  evaluate arr carrier (fold_left notify (h ++ [sent (amplified k x)]) e) = evaluate arr carrier (fold_left notify (h ++ [sent x]) e).
Proof.
  intros arr carrier m f e h v x k Hb Hm He Hmode Hf Hfit Ht Hk sent. destruct (codebook_spec arr carrier m Hb Hm) as [c [Ec [Lc [C0 [Cw Cr]]]]].
  unfold make_evaluator in He. rewrite Ec in He. injection He as <-. rewrite !fold_left_app, !notify_all. cbn [fold_left].
  apply (evaluate_amplified arr carrier _ _ v (length (select m (antennas arr))) x k); subst sent; destruct Hm; subst m;
    cbn [notify e_mode e_focus e_codebook e_input e_output]; rewrite ?Hmode; try assumption; try reflexivity.
  - left. repeat split; reflexivity.
  - right. repeat split; reflexivity.
Qed.
Print Assumptions C115_scale.
Example C115_scale_met : last_mode [SetMode RX; SetMode TX] TX = TX /\ RtoC 2 <> RtoC 0.
Proof. split; [reflexivity|apply RtoC_neq; lra]. Qed.

(** Reception: the weights are not conjugated.  The focus power is largest for a wave from the direction opposite to the focus … *)
Theorem C115_receive_mirrored : forall arr carrier f v s c, rigid (base arr) -> aimed arr f v -> (0 < length (select RX (antennas arr)))%nat ->
  energy (at0 s) (length s) <> 0 -> Forall (fun w => length w = length (select RX (antennas arr))) c ->
  exists r, evaluate arr carrier (Evaluator RX f c (Some [arriving (wavefront arr carrier (opposite v) RX) s]) None) = Ok r /\
  focus_power r = Some (INR (length (select RX (antennas arr)))).
Proof.
  intros arr carrier f v s c Hb Hf Hn Hs Hc. set (n := length (select RX (antennas arr))) in *.
  assert (Hl : length (wavefront arr carrier (opposite v) RX) = n) by apply length_wavefront. assert (Hn' : INR n <> 0) by (apply not_0_INR; lia).
  assert (Htot : total_energy [arriving (wavefront arr carrier (opposite v) RX) s] = INR n * energy (at0 s) (length s)).
  { rewrite total_arriving; rewrite ?Hl; [reflexivity|intros k Hk; apply wavefront_unit; rewrite Hl; exact Hk|exact Hn]. }
  eexists. split; [apply (evaluate_spec arr carrier _ v n [arriving (wavefront arr carrier (opposite v) RX) s]); cbn [e_mode e_focus e_codebook e_input e_output]; try assumption; try reflexivity|].
  - right. split; reflexivity.
  - rewrite <- Hl. apply fits_arriving. rewrite Hl. exact Hn.
  - rewrite Htot. apply Rmult_integral_contrapositive_currified; assumption.
  - cbn [focus_power e_mode]. f_equal. unfold pattern. rewrite Htot, weighted_arriving by (rewrite ?Hl; try exact Hn; apply length_wavefront). rewrite Hl.
    rewrite (csum_ext _ (fun _ => RtoC 1)) by (intros k Hk; apply opposite_phase; exact Hk). rewrite csum_const, Cmult_1_r, Cmod_R, Rabs_right by (apply Rle_ge, pos_INR).
    field. split; assumption.
Qed.
Print Assumptions C115_receive_mirrored.
Example C115_receive_mirrored_met : let arr := along_x RX [0; 1/4] in
  rigid (base arr) /\ aimed arr (Coordinate (V 1 0 0) Local) (V 1 0 0) /\ (0 < length (select RX (antennas arr)))%nat /\ energy (at0 [RtoC 1]) (length [RtoC 1]) <> 0.
Proof.
  cbv zeta. split; [apply rigid_line|]. split; [split; [apply norm_one; comps; ring|reflexivity]|]. split; [cbn; lia|].
  unfold energy. cbn [length rsum at0 nth]. rewrite Cmod_1. lra.
Qed.
(** … and may be zero although the signal comes from the focus and from nowhere else *)
Theorem C115_receive_refuted : exists arr carrier f v s r, rigid (base arr) /\ aimed arr f v /\ energy (at0 s) (length s) <> 0 /\
  evaluate arr carrier (Evaluator RX f [] (Some [arriving (wavefront arr carrier v RX) s]) None) = Ok r /\ focus_power r = Some 0.
Proof.
  set (arr := along_x RX [0; 1/4]). set (v := V 1 0 0). exists arr, lam, (Coordinate v Local), v, [RtoC 1].
  destruct C115_receive_mirrored_met as [H1 [H2 [H3 H4]]]. fold arr v in H1, H2, H3, H4.
  assert (Hl : length (wavefront arr lam v RX) = 2%nat) by (rewrite length_wavefront; reflexivity).
  assert (Htot : total_energy [arriving (wavefront arr lam v RX) [RtoC 1]] = INR 2 * energy (at0 [RtoC 1]) (length [RtoC 1])).
  { rewrite total_arriving; rewrite ?Hl; [reflexivity|intros k Hk; apply wavefront_unit; rewrite Hl; exact Hk|lia]. }
  eexists. split; [exact H1|]. split; [exact H2|]. split; [exact H4|].
  split; [apply (evaluate_spec arr lam _ v 2 [arriving (wavefront arr lam v RX) [RtoC 1]]); cbn [e_mode e_focus e_codebook e_input e_output]; try assumption; try reflexivity|].
  - right. split; reflexivity.
  - rewrite <- Hl. apply fits_arriving. rewrite Hl. lia.
  - constructor.
  - rewrite Htot. apply Rmult_integral_contrapositive_currified; [cbn; lra|exact H4].
  - cbn [focus_power e_mode]. f_equal. unfold pattern. rewrite weighted_arriving by (rewrite ?Hl; try lia; reflexivity). rewrite Hl.
    assert (E : csum (fun n => at0 (wavefront arr lam v RX) n * at0 (wavefront arr lam v RX) n)%C 2 = RtoC 0).
    { cbn [csum]. unfold wavefront. cbn [arr along_x antennas map select filter amode mode_eqb negb apose translation at0 nth]. unfold v, dot. cbn [vx vy vz]. rewrite !lam_phase.
      rewrite <- !cis_add. replace (2 * PI * (1 * 0 + 0 * 0 + 0 * 0) + 2 * PI * (1 * 0 + 0 * 0 + 0 * 0)) with 0 by ring.
      replace (2 * PI * (1 * (1 / 4) + 0 * 0 + 0 * 0) + 2 * PI * (1 * (1 / 4) + 0 * 0 + 0 * 0)) with PI by field. rewrite cis_0, cis_PI. ring. }
    rewrite E, Cmod_0. unfold Rdiv. ring.
Qed.
Print Assumptions C115_receive_refuted.

(** ** Self-interference *)
(** With a leaking signal in the last input, SI is its power per stream, and SSINR the summed powers of the impinging signals over those of leakage and noise *)
Theorem C115_interference : forall h i si n, i_leaking i = Some si -> length si = n -> length (i_noise i) = n -> i_impinging i <> [] ->
  Forall (fun p => length p = n) (i_impinging i) ->
  si_evaluate (fold_left si_notify (h ++ [i]) None) = Ok si /\
  exists r, ssinr_evaluate (fold_left si_notify (h ++ [i]) None) = Ok r /\ length r = n /\
  forall k, (k < n)%nat -> let d := nth k si 0 + nth k (i_noise i) 0 in d <> 0 -> nth k r None = Some (stream_power (i_impinging i) k / d).
Proof.
  intros h i si n Hl Hsi Hno Hi Hp. rewrite fold_left_app. cbn [fold_left si_notify]. unfold si_notify. unfold si_evaluate, ssinr_evaluate. rewrite Hl. split; [reflexivity|].
  cbn [bind]. destruct (i_impinging i) as [|x l] eqn:Ei; [contradiction|].
  assert (Hx : length x = n) by (inversion Hp; assumption).
  destruct (add_all_spec (x :: l) (repeat 0 (length x)) n) as [p [E [Lp Hk]]]; [rewrite repeat_length; exact Hx|exact Hp|].
  rewrite E. cbn [bind]. rewrite (broadcast_same Rplus) by congruence. cbn [bind].
  set (d := map _ (combine si (i_noise i))). assert (Hd : length d = n) by (unfold d; rewrite map_length, combine_length; lia).
  rewrite (broadcast_same ratio) by congruence. eexists. split; [reflexivity|]. split; [rewrite map_length, combine_length; lia|].
  intros k Hkn. cbv zeta. intros Hd0. rewrite (nth_pairs ratio) by (try congruence; lia). unfold d. rewrite (nth_pairs Rplus) by (try congruence; lia).
  rewrite Hk by exact Hkn. rewrite nth_repeat, Rplus_0_l. apply ratio_some. exact Hd0.
Qed.
Print Assumptions C115_interference.
Example C115_interference_met : let i := DeviceInput [[1; 2]; [3; 4]] (Some [1; 1]) [1; 3] in
  i_leaking i = Some [1; 1] /\ i_impinging i <> [] /\ Forall (fun p => length p = 2%nat) (i_impinging i) /\ stream_power (i_impinging i) 1 = 6 /\ nth 1 [1; 1] 0 + nth 1 (i_noise i) 0 <> 0.
Proof. cbn. split; [reflexivity|]. split; [discriminate|]. split; [repeat constructor|]. split; lra. Qed.
(** Otherwise both fail with errors that do not name the reason: nothing received, nothing leaking, nothing impinging *)
Theorem C115_interference_refuted : si_evaluate None = Raise AttributeError /\ ssinr_evaluate None = Raise AttributeError /\
  (forall h i, i_leaking i = None -> si_evaluate (fold_left si_notify (h ++ [i]) None) = Raise AttributeError /\ ssinr_evaluate (fold_left si_notify (h ++ [i]) None) = Raise AttributeError) /\
  (forall h i si, i_leaking i = Some si -> i_impinging i = [] -> ssinr_evaluate (fold_left si_notify (h ++ [i]) None) = Raise IndexError).
Proof.
  split; [reflexivity|]. split; [reflexivity|]. split.
  - intros h i Hl. rewrite fold_left_app. cbn [fold_left]. unfold si_notify, si_evaluate, ssinr_evaluate. rewrite Hl. split; reflexivity.
  - intros h i si Hl Hi. rewrite fold_left_app. cbn [fold_left]. unfold si_notify, ssinr_evaluate. rewrite Hl, Hi. reflexivity.
Qed.
Print Assumptions C115_interference_refuted.
