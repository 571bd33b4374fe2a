(** Properties of channels and channel state information (C70 - C74). *)
From Coq Require Import List Reals ZArith Bool Arith Lra Lia.
From Coquelicot Require Import Complex.
From Verif Require Import Base BaseLemmas Cplx Cplx_Proofs Chan_Model Chan_Spec Chan_Proofs.
Import ListNotations.
Open Scope R_scope.

(** ** C70: the state describes the propagation *)
Theorem C70_ideal_state_describes_propagation : forall gain nr nt s n m, streams s = nt -> (samples s <= n)%nat ->
  exists y, csi_propagate (ideal_state gain nr nt n m) s = Ok y /\ same_samples (fst (ideal_propagate gain nr nt s)) y.
Proof.
  intros gain nr nt s n m Hs Hn. destruct (csi_propagate_received (ideal_state gain nr nt n m) s eq_refl ltac:(cbn; lia) Hs Hn) as [y [Ey [Sy [Ny Xy]]]].
  exists y. split; [exact Ey|]. destruct (ideal_dimensions gain nr nt s) as [S1 [N1 _]]. split; [rewrite Sy; exact S1|]. split; [rewrite Ny, N1; cbn; lia|].
  intros r j Hr Hj. rewrite S1 in Hr. rewrite N1 in Hj. rewrite Xy by exact Hr. rewrite ideal_received by assumption. reflexivity.
Qed.
Print Assumptions C70_ideal_state_describes_propagation.
Theorem C70_delay_state_describes_propagation : forall c s n m, streams s = d_tx c -> (samples s <= n)%nat -> (in_samples (d_delay c) (d_bandwidth c) < m)%nat ->
  exists y, csi_propagate (delay_state c n m) s = Ok y /\ same_samples (delay_propagate c s) y.
Proof.
  intros c s n m Hs Hn Hm. set (d := in_samples (d_delay c) (d_bandwidth c)) in *.
  assert (Et : ntaps (delay_state c n m) = S d) by (cbn [delay_state impulse_csi ntaps]; fold d; lia).
  destruct (csi_propagate_received (delay_state c n m) s eq_refl ltac:(lia) Hs Hn) as [y [Ey [Sy [Ny Xy]]]].
  exists y. split; [exact Ey|]. split; [rewrite Sy; reflexivity|]. split; [rewrite Ny, Et; cbn [delay_propagate samples]; fold d; lia|].
  intros r j Hr Hj. rewrite Xy by exact Hr. rewrite delay_received by exact Hj. unfold received, csi_taps, delay_taps. rewrite Et, total_map. cbn [td weight]. fold d. cbn [total].
  cbn [delay_state impulse_csi h]. fold d. replace (Nat.ltb d m) with true by (symmetry; apply Nat.ltb_lt; exact Hm). cbn [andb].
  rewrite (total_ext (fun _ => csum _ _) (fun k => if Nat.eqb k d then csum (fun t => if (Nat.leb k j && Nat.ltb j (k + samples s))%bool then RtoC (d_gain c) * d_response c r t * x s t (j - k) else RtoC 0)%C (streams s) else RtoC 0)).
  - rewrite total_delta. replace (Nat.ltb d (S d)) with true by (symmetry; apply Nat.ltb_lt; lia). rewrite Cplus_0_r. reflexivity.
  - intros k _. destruct (Nat.eqb_spec k d) as [->|Hk]; [reflexivity|]. rewrite (csum_ext _ (fun _ => RtoC 0)); [apply csum_0|]. intros t _. destruct (_ && _)%bool; ring.
Qed.
Print Assumptions C70_delay_state_describes_propagation.
(** Fading channels between devices all of whose antennas transmit and receive.  The requested number of taps may cut off late paths *)
Definition truncated (taps : nat) (c : fading_sample) : fading_sample :=
  Fading (f_rx c) (f_tx c) (a_rx c) (a_tx c) (f_bandwidth c) (f_gain c) (los_doppler c) (nlos_doppler c)
    (filter (fun p => Nat.ltb (path_delay c p) taps) (paths c)) (f_response c).
Lemma truncated_taps : forall taps c, filter (fun p => Nat.ltb (td p) taps) (fading_taps c) = fading_taps (truncated taps c).
Proof. intros taps c. unfold fading_taps, truncated. cbn [paths]. induction (paths c) as [|p l IH]; cbn [map filter td]; [reflexivity|]. destruct (Nat.ltb (path_delay c p) taps); cbn [map]; rewrite IH; reflexivity. Qed.
Theorem C70_fading_state_describes_propagation : forall c s n m, 0 <= f_bandwidth c -> f_rx c = a_rx c -> f_tx c = a_tx c -> streams s = f_tx c -> (samples s <= n)%nat ->
  Forall (fun p => (path_delay c p < m)%nat) (paths c) -> (0 < m)%nat ->
  (exists k, In k (paths c) /\ p_delay k = max_delay c) ->
  exists y z e, fading_propagate c s = Ok z /\ fading_state c n m = Ok e /\ csi_propagate e s = Ok y /\ same_samples z y.
Proof.
  intros c s n m Hb Hr Ht Hs Hn Hp Hm [q [Hq Eq]]. set (D := in_samples (max_delay c) (f_bandwidth c)).
  assert (HD : (D < m)%nat) by (rewrite Forall_forall in Hp; specialize (Hp q Hq); unfold path_delay in Hp; rewrite Eq in Hp; exact Hp).
  destruct (fading_received c s Hb ltac:(rewrite Ht in *; rewrite Nat.min_id; exact Hs)) as [z [Ez [Sz [Nz [_ Xz]]]]].
  destruct (fading_state_ok c n m) as [e [Ee He]].
  { apply Forall_forall. intros p Hin. pose proof (path_delay_max c p Hb Hin). fold D in H. fold D. lia. }
  replace (Nat.min (1 + in_samples (max_delay c) (f_bandwidth c)) m) with (S D) in * by (fold D; lia).
  destruct (csi_propagate_received (impulse_csi (a_rx c) (a_tx c) n (S D) e) s eq_refl ltac:(cbn; lia) ltac:(cbn [impulse_csi ntx]; congruence) Hn) as [y [Ey [Sy [Ny Xy]]]].
  exists y, z. eexists. split; [exact Ez|]. split; [exact Ee|]. split; [exact Ey|]. cbn [impulse_csi nrx ntaps] in *. split; [rewrite Sz, Sy, Hr, Nat.min_id; reflexivity|]. split; [rewrite Nz, Ny; fold D; lia|].
  intros r j Hr' Hj. rewrite Xz by assumption. rewrite Sz, Hr, Nat.min_id in Hr'. rewrite Xy by exact Hr'.
  transitivity (received (filter (fun p => Nat.ltb (td p) (S D)) (fading_taps c)) s r j).
  - f_equal. symmetry. apply filter_all. intros t Hin. unfold fading_taps in Hin. apply in_map_iff in Hin as [p [<- Hin]]. cbn [td].
    apply Nat.ltb_lt. pose proof (path_delay_max c p Hb Hin). fold D in H. lia.
  - rewrite <- received_siso. unfold received, csi_taps. rewrite total_map. cbn [td weight ntaps impulse_csi h]. apply total_ext. intros d Hd. apply in_seq in Hd. apply csum_ext. intros t _.
    rewrite He by lia. reflexivity.
Qed.
Print Assumptions C70_fading_state_describes_propagation.
(** With fewer taps the state describes the channel without the later paths, unless one of them is exactly as late as the number of taps *)
Theorem C70_fading_state_is_truncated : forall c s n m, 0 <= f_bandwidth c -> f_rx c = a_rx c -> f_tx c = a_tx c -> streams s = f_tx c -> (samples s <= n)%nat -> (0 < m)%nat ->
  (m <= in_samples (max_delay c) (f_bandwidth c))%nat ->
  (Exists (fun p => path_delay c p = m) (paths c) -> fading_state c n m = Raise IndexError) /\
  (Forall (fun p => path_delay c p <> m) (paths c) ->
   exists y z e, fading_propagate (truncated m c) s = Ok z /\ fading_state c n m = Ok e /\ csi_propagate e s = Ok y /\ streams y = streams z /\
   forall r j, (r < streams z)%nat -> (j < samples z)%nat -> (j < samples y)%nat -> x z r j = x y r j).
Proof.
  intros c s n m Hb Hr Ht Hs Hn Hm HD. assert (Em : Nat.min (1 + in_samples (max_delay c) (f_bandwidth c)) m = m) by lia. split.
  - intros He. apply fading_state_fails. rewrite Em. exact He.
  - intros Hf. destruct (fading_state_ok c n m) as [e [Ee He]]; [rewrite Em; exact Hf|]. rewrite Em in *.
    destruct (fading_received (truncated m c) s Hb ltac:(cbn [truncated f_tx a_tx]; rewrite Ht in *; rewrite Nat.min_id; exact Hs)) as [z [Ez [Sz [Nz [_ Xz]]]]].
    destruct (csi_propagate_received (impulse_csi (a_rx c) (a_tx c) n m e) s eq_refl Hm ltac:(cbn [impulse_csi ntx]; congruence) Hn) as [y [Ey [Sy [Ny Xy]]]].
    exists y, z. eexists. split; [exact Ez|]. split; [exact Ee|]. split; [exact Ey|]. cbn [impulse_csi nrx ntaps truncated f_rx a_rx] in *. rewrite Hr, Nat.min_id in Sz. split; [congruence|].
    intros r j Hr' Hj _. rewrite Xz by assumption. rewrite Sz in Hr'. rewrite Xy by exact Hr'. rewrite <- truncated_taps, <- received_siso.
    unfold received, csi_taps. rewrite total_map. cbn [td weight ntaps impulse_csi h]. apply total_ext. intros d Hd. apply in_seq in Hd. apply csum_ext. intros t _. rewrite He by lia. reflexivity.
Qed.
Print Assumptions C70_fading_state_is_truncated.

(** A two path channel: delays 0 and 2 samples *)
Definition two_paths (nr ar : nat) : fading_sample :=
  Fading nr 1 ar 1 1 1 0 0 [Path 0 1 1 0 0 0 []; Path 2 4 1 0 0 0 []] (fun _ _ => RtoC 1).
Lemma rint_Z : forall z, rint (IZR z) = z.
Proof.
  intros z. unfold rint.
  assert (E : Int_part (IZR z) = z) by (destruct (floor_spec (IZR z)) as [F1 F2]; apply le_IZR in F1; rewrite <- plus_IZR in F2; apply lt_IZR in F2; lia). rewrite E. replace (IZR z - IZR z) with 0 by ring. destruct (Rlt_dec 0 (1 / 2)); [reflexivity|lra].
Qed.
Lemma two_delays : forall nr ar p, path_delay (two_paths nr ar) p = Z.to_nat (rint (p_delay p)).
Proof. intros. unfold path_delay, in_samples. cbn [two_paths f_bandwidth]. rewrite Rmult_1_r. reflexivity. Qed.
Lemma two_max : forall nr ar, max_delay (two_paths nr ar) = 2.
Proof. intros. unfold max_delay. cbn [two_paths paths map p_delay fold_right]. rewrite (Rmax_left 2 0) by lra. apply Rmax_right. lra. Qed.
Lemma two_max_samples : forall nr ar, in_samples (max_delay (two_paths nr ar)) (f_bandwidth (two_paths nr ar)) = 2%nat.
Proof. intros. rewrite two_max. unfold in_samples. cbn [two_paths f_bandwidth]. rewrite Rmult_1_r, rint_Z. reflexivity. Qed.
Example C70_fading_met : let c := two_paths 1 1 in 0 <= f_bandwidth c /\ f_rx c = a_rx c /\ f_tx c = a_tx c /\ Forall (fun p => (path_delay c p < 3)%nat) (paths c) /\
  (exists k, In k (paths c) /\ p_delay k = max_delay c) /\ in_samples (max_delay c) (f_bandwidth c) = 2%nat /\ Exists (fun p => path_delay c p = 2%nat) (paths c) /\
  Forall (fun p => path_delay c p <> 1%nat) (paths c).
Proof.
  cbv zeta. cbn [f_rx a_rx f_tx a_tx two_paths]. fold (two_paths 1 1). split; [cbn; lra|]. split; [reflexivity|]. split; [reflexivity|].
  assert (P0 : path_delay (two_paths 1 1) (Path 0 1 1 0 0 0 []) = 0%nat) by (rewrite two_delays; cbn [p_delay]; rewrite rint_Z; reflexivity).
  assert (P2 : path_delay (two_paths 1 1) (Path 2 4 1 0 0 0 []) = 2%nat) by (rewrite two_delays; cbn [p_delay]; rewrite rint_Z; reflexivity).
  split; [constructor; [rewrite P0; lia|constructor; [rewrite P2; lia|constructor]]|].
  split; [exists (Path 2 4 1 0 0 0 []); split; [right; left; reflexivity|rewrite two_max; reflexivity]|].
  split; [apply two_max_samples|]. split; [apply Exists_cons_tl, Exists_cons_hd; exact P2|]. constructor; [rewrite P0; lia|constructor; [rewrite P2; lia|constructor]].
Qed.
Example C70_delay_met : let c := Delay 2 1 3 1 5 (fun _ _ => RtoC 1) in (in_samples (d_delay c) (d_bandwidth c) < 4)%nat.
Proof. cbv zeta. cbn [d_delay d_bandwidth]. unfold in_samples. rewrite Rmult_1_r, rint_Z. cbn. lia. Qed.
(** A request for as many taps as the delay of a path fails *)
Theorem C70_states_can_be_requested_refuted : exists c, Forall (fun p => 0 <= p_delay p) (paths c) /\ f_rx c = a_rx c /\ f_tx c = a_tx c /\ forall n, fading_state c n 2 = Raise IndexError.
Proof.
  exists (two_paths 1 1). split; [repeat constructor; cbn; lra|]. split; [reflexivity|]. split; [reflexivity|]. intros n.
  apply fading_state_fails. rewrite two_max_samples. cbn [Nat.min Nat.add]. apply Exists_cons_tl, Exists_cons_hd. rewrite two_delays. cbn [p_delay]. rewrite rint_Z. reflexivity.
Qed.
Print Assumptions C70_states_can_be_requested_refuted.
(** Antennas that only transmit are counted as receiving ones by the state, not by the propagation *)
Theorem C70_states_count_receiving_antennas_refuted : exists c s y e, fading_propagate c s = Ok y /\ fading_state c (samples s) 3 = Ok e /\ streams y = 1%nat /\ nrx e = 2%nat.
Proof.
  exists (two_paths 1 2), (Blk 1 1 0 (fun _ _ => RtoC 1)).
  destruct (fading_received (two_paths 1 2) (Blk 1 1 0 (fun _ _ => RtoC 1)) ltac:(cbn; lra) eq_refl) as [y [Ey [Sy _]]].
  destruct (fading_state_ok (two_paths 1 2) 1 3) as [e [Ee _]].
  { rewrite two_max_samples. cbn [Nat.min Nat.add]. repeat constructor; rewrite two_delays; cbn [p_delay]; rewrite rint_Z; cbn; lia. }
  exists y. eexists. split; [exact Ey|]. split; [exact Ee|]. split; [rewrite Sy; reflexivity|reflexivity].
Qed.
Print Assumptions C70_states_count_receiving_antennas_refuted.

(** ** C71: propagation is linear and causal *)
(** What it means for a block-wise propagation *)
Definition linear_on (nt : nat) (prop : blk -> result blk) : Prop := forall a b k, streams a = nt -> streams b = nt -> samples a = samples b ->
  exists ya yb yab yk, prop a = Ok ya /\ prop b = Ok yb /\ prop (add_blk a b) = Ok yab /\ prop (scale_blk k a) = Ok yk /\
  same_samples yab (add_blk ya yb) /\ same_samples yk (scale_blk k ya).
Definition causal_on (nt : nat) (prop : blk -> result blk) : Prop := forall a b n, streams a = nt -> agree_before n a b ->
  exists ya yb, prop a = Ok ya /\ prop b = Ok yb /\ agree_before n ya yb.
Lemma superposition_linear : forall taps nt prop nr D, (forall s, streams s = nt -> exists y, prop s = Ok y /\ streams y = nr /\ samples y = (samples s + D)%nat /\
    forall r j, (r < nr)%nat -> (j < samples y)%nat -> x y r j = received taps s r j) -> linear_on nt prop /\ causal_on nt prop.
Proof.
  intros taps nt prop nr D H. split.
  - intros a b k Ha Hb Hab. destruct (H a Ha) as [ya [Ea [Sa [Na Xa]]]]. destruct (H b Hb) as [yb [Eb [Sb [Nb Xb]]]].
    destruct (H (add_blk a b) Ha) as [yab [Eab [Sab [Nab Xab]]]]. destruct (H (scale_blk k a) Ha) as [yk [Ek [Sk [Nk Xk]]]].
    exists ya, yb, yab, yk. repeat (split; [assumption|]). cbn [add_blk scale_blk samples] in *. split.
    + split; [cbn [add_blk streams]; congruence|]. split; [cbn [add_blk samples]; congruence|]. intros r j Hr Hj. cbn [add_blk x].
      rewrite Xab, Xa, Xb by (try (rewrite Sab in Hr; exact Hr); lia). apply received_plus; congruence.
    + split; [cbn [scale_blk streams]; congruence|]. split; [cbn [scale_blk samples]; congruence|]. intros r j Hr Hj. cbn [scale_blk x].
      rewrite Xk, Xa by (try (rewrite Sk in Hr; exact Hr); lia). apply received_scal.
  - intros a b n Ha Hab. destruct (H a Ha) as [ya [Ea [Sa [Na Xa]]]]. assert (Hb : streams b = nt) by (destruct Hab as [<- _]; exact Ha).
    destruct (H b Hb) as [yb [Eb [Sb [Nb Xb]]]]. exists ya, yb. split; [exact Ea|]. split; [exact Eb|]. split; [congruence|].
    split; [destruct Hab as [_ [E _]]; congruence|]. intros r j Hr Hj Hj'. rewrite Xa, Xb by (try (rewrite Sa in Hr; exact Hr); destruct Hab as [_ [E _]]; lia).
    apply (received_causal taps a b n); assumption.
Qed.
Theorem C71_ideal_propagation_is_linear_and_causal : forall gain nr nt,
  linear_on nt (fun s => Ok (fst (ideal_propagate gain nr nt s))) /\ causal_on nt (fun s => Ok (fst (ideal_propagate gain nr nt s))).
Proof.
  intros gain nr nt. apply (superposition_linear (ideal_taps gain nr nt) nt _ nr 0). intros s Hs. eexists. split; [reflexivity|]. destruct (ideal_dimensions gain nr nt s) as [S1 [N1 _]].
  split; [exact S1|]. split; [lia|]. intros r j Hr Hj. rewrite N1 in Hj. apply ideal_received; assumption.
Qed.
Print Assumptions C71_ideal_propagation_is_linear_and_causal.
Theorem C71_delay_propagation_is_linear_and_causal : forall c,
  linear_on (d_tx c) (fun s => Ok (delay_propagate c s)) /\ causal_on (d_tx c) (fun s => Ok (delay_propagate c s)).
Proof.
  intros c. apply (superposition_linear (delay_taps c) (d_tx c) _ (d_rx c) (in_samples (d_delay c) (d_bandwidth c))). intros s Hs. eexists. split; [reflexivity|].
  split; [reflexivity|]. split; [cbn [delay_propagate samples]; lia|]. intros r j Hr Hj. apply delay_received; assumption.
Qed.
Print Assumptions C71_delay_propagation_is_linear_and_causal.
Theorem C71_fading_propagation_is_linear_and_causal : forall c, 0 <= f_bandwidth c -> (f_tx c <= a_tx c)%nat ->
  linear_on (f_tx c) (fading_propagate c) /\ causal_on (f_tx c) (fading_propagate c).
Proof.
  intros c Hb Ht. apply (superposition_linear (fading_taps c) (f_tx c) _ (Nat.min (f_rx c) (a_rx c)) (in_samples (max_delay c) (f_bandwidth c))). intros s Hs.
  destruct (fading_received c s Hb ltac:(rewrite Nat.min_l by exact Ht; exact Hs)) as [y [Ey [Sy [Ny [_ Xy]]]]]. exists y. split; [exact Ey|]. split; [exact Sy|]. split; [exact Ny|].
  intros r j Hr Hj. apply Xy; [rewrite Sy; exact Hr|exact Hj].
Qed.
Print Assumptions C71_fading_propagation_is_linear_and_causal.
(** State information propagates linearly and causally as well *)
Theorem C71_state_propagation_is_linear_and_causal : forall c n, format c = Impulse -> (0 < ntaps c)%nat -> (n <= nsamples c)%nat ->
  forall a b k, streams a = ntx c -> streams b = ntx c -> samples a = n -> samples b = n ->
  exists ya yb yab yk, csi_propagate c a = Ok ya /\ csi_propagate c b = Ok yb /\ csi_propagate c (add_blk a b) = Ok yab /\ csi_propagate c (scale_blk k a) = Ok yk /\
  same_samples yab (add_blk ya yb) /\ same_samples yk (scale_blk k ya).
Proof.
  intros c n Hf Ht Hn a b k Ha Hb Na Nb.
  destruct (csi_propagate_received c a Hf Ht Ha ltac:(lia)) as [ya [Ea [Sa [La Xa]]]]. destruct (csi_propagate_received c b Hf Ht Hb ltac:(lia)) as [yb [Eb [Sb [Lb Xb]]]].
  destruct (csi_propagate_received c (add_blk a b) Hf Ht Ha ltac:(cbn [add_blk samples]; lia)) as [yab [Eab [Sab [Lab Xab]]]].
  destruct (csi_propagate_received c (scale_blk k a) Hf Ht Ha ltac:(cbn [scale_blk samples]; lia)) as [yk [Ek [Sk [Lk Xk]]]].
  exists ya, yb, yab, yk. repeat (split; [assumption|]). cbn [add_blk scale_blk samples] in *. split.
  - split; [cbn [add_blk streams]; congruence|]. split; [cbn [add_blk samples]; lia|]. intros r j Hr _. cbn [add_blk x]. rewrite Sab in Hr. rewrite Xab, Xa, Xb by exact Hr. apply received_plus; congruence.
  - split; [cbn [scale_blk streams]; congruence|]. split; [cbn [scale_blk samples]; lia|]. intros r j Hr _. cbn [scale_blk x]. rewrite Sk in Hr. rewrite Xk, Xa by exact Hr. apply received_scal.
Qed.
Print Assumptions C71_state_propagation_is_linear_and_causal.
(** Nothing arrives before the delay, and the delay is the nearest number of samples *)
Theorem C71_delays_are_kept : forall c s, 0 <= d_delay c -> 0 < d_bandwidth c ->
  let d := in_samples (d_delay c) (d_bandwidth c) in
  Rabs (INR d - d_delay c * d_bandwidth c) <= 1 / 2 /\ samples (delay_propagate c s) = (d + samples s)%nat /\
  (forall r j, (j < d)%nat -> x (delay_propagate c s) r j = RtoC 0) /\
  forall r j, x (delay_propagate c s) r (d + j) = csum (fun t => RtoC (d_gain c) * d_response c r t * x s t j)%C (streams s).
Proof.
  intros c s Hd Hb d. split; [|split; [reflexivity|split]].
  - assert (P : 0 <= d_delay c * d_bandwidth c) by nra. unfold d, in_samples. set (v := d_delay c * d_bandwidth c) in *. pose proof (floor_spec v) as F.
    assert (Hf : (0 <= Int_part v)%Z) by (apply Z.lt_succ_r, lt_IZR; unfold Z.succ; rewrite plus_IZR; lra).
    rewrite INR_IZR_INZ. destruct (rint_cases v) as [[-> H]|[-> H]]; rewrite Z2Nat.id by lia; [|rewrite plus_IZR]; apply Rabs_le; lra.
  - intros r j Hj. cbn [delay_propagate x]. fold d. replace (Nat.ltb j d) with true by (symmetry; apply Nat.ltb_lt; exact Hj). reflexivity.
  - intros r j. cbn [delay_propagate x]. fold d. replace (Nat.ltb (d + j) d) with false by (symmetry; apply Nat.ltb_ge; lia). replace (d + j - d)%nat with j by lia. reflexivity.
Qed.
Print Assumptions C71_delays_are_kept.
Example C71_met : let c := two_paths 1 1 in 0 <= f_bandwidth c /\ (f_tx c <= a_tx c)%nat /\ fading_taps c <> [].
Proof. cbv zeta. cbn [two_paths f_bandwidth f_tx a_tx]. split; [lra|]. split; [lia|discriminate]. Qed.

(** ** C72: signals of several blocks are propagated block by block *)
(** The result has the samples of the propagated whole signal, if there are at least [gap] samples between blocks *)
Definition blockwise_exact (gap nt : nat) (prop : blk -> result blk) : Prop := forall scale nr d l,
  0 < scale -> (2 <= length l)%nat -> spaced gap l -> Forall (fun b => streams b = nt) l ->
  exists whole out z w, to_dense l = Ok whole /\ channel_propagate scale nr nt prop (Sparse d l) = Ok (Sparse d out) /\
    to_dense out = Ok z /\ prop whole = Ok w /\ same_samples z w.
Lemma blockwise_steady : forall taps gap nt nr0 prop, steady taps -> (forall p, In p taps -> (td p <= gap)%nat) ->
  (forall b, streams b = nt -> exists y, prop b = Ok y /\ streams y = nr0 /\ samples y = (samples b + gap)%nat /\ offset y = offset b /\
     forall r j, (r < streams y)%nat -> (j < samples y)%nat -> x y r j = received taps b r j) -> blockwise_exact gap nt prop.
Proof.
  intros taps gap nt nr0 prop Hs Hd Hp scale nr d l Hsc Hl Hsp Hst.
  set (f := fun b => match prop b with Ok y => y | Raise _ => b end).
  assert (Ef : forall b, streams b = nt -> prop b = Ok (f b)) by (intros b Hb; destruct (Hp b Hb) as [y [Ey _]]; unfold f; rewrite Ey; reflexivity).
  destruct (blockwise taps gap f l nt Hs Hd Hsp Hst) as [y [z [Ey [Sy [Ez Hsame]]]]].
  - intros ->. cbn in Hl. lia.
  - intros b Hb. destruct (Hp b Hb) as [y [Ey [_ [Ny [Oy Xy]]]]]. unfold f. rewrite Ey. repeat split; assumption.
  - intros b c Hb Hc. destruct (Hp b Hb) as [y [Ey [Sy _]]]. destruct (Hp c Hc) as [y' [Ey' [Sy' _]]]. unfold f. rewrite Ey, Ey'. congruence.
  - exists y, (map f l), z, (f y). split; [exact Ey|]. split; [|split; [exact Ez|split; [apply Ef; exact Sy|exact Hsame]]].
    unfold channel_propagate. destruct (Rle_dec scale 0) as [H|_]; [lra|]. destruct l as [|b [|c l]]; [cbn in Hl; lia|cbn in Hl; lia|].
    assert (Hb : streams b = nt) by (inversion Hst; assumption). cbn [num_streams blocks]. rewrite Hb, Nat.eqb_refl. cbn [negb].
    assert (Em : mapM prop (b :: c :: l) = Ok (map f (b :: c :: l))).
    { clear - Hst Ef. induction Hst as [|a l' Ha _ IH]; [reflexivity|]. cbn [mapM map]. rewrite (Ef a Ha). cbn [bind]. rewrite IH. reflexivity. }
    rewrite Em. reflexivity.
Qed.
Theorem C72_ideal_propagation_is_blockwise : forall gain nr nt, blockwise_exact 0 nt (fun s => Ok (fst (ideal_propagate gain nr nt s))).
Proof.
  intros gain nr nt. apply (blockwise_steady (ideal_taps gain nr nt) 0 nt nr).
  - repeat constructor.
  - intros p [<-|[]]. reflexivity.
  - intros b Hb. eexists. split; [reflexivity|]. destruct (ideal_dimensions gain nr nt b) as [S1 [N1 O1]]. split; [exact S1|]. split; [lia|]. split; [exact O1|].
    intros r j Hr Hj. rewrite S1 in Hr. rewrite N1 in Hj. apply ideal_received; assumption.
Qed.
Print Assumptions C72_ideal_propagation_is_blockwise.
Theorem C72_delay_propagation_is_blockwise : forall c, blockwise_exact (in_samples (d_delay c) (d_bandwidth c)) (d_tx c) (fun s => Ok (delay_propagate c s)).
Proof.
  intros c. apply (blockwise_steady (delay_taps c) _ _ (d_rx c)).
  - repeat constructor.
  - intros p [<-|[]]. reflexivity.
  - intros b Hb. eexists. split; [reflexivity|]. split; [reflexivity|]. split; [cbn [delay_propagate samples]; lia|]. split; [reflexivity|]. intros r j Hr Hj. apply delay_received. exact Hj.
Qed.
Print Assumptions C72_delay_propagation_is_blockwise.
Lemma impulse_steady : forall c p i k, los_doppler c = 0 -> nlos_doppler c = 0 -> impulse c p i = impulse c p k.
Proof.
  intros c p i k Hl Hn. unfold impulse. rewrite Hl, Hn. cbv zeta. rewrite !Rmult_0_l.
  reflexivity.
Qed.
(** Fading channels without motion *)
Theorem C72_fading_propagation_is_blockwise : forall c, 0 <= f_bandwidth c -> (f_tx c <= a_tx c)%nat -> los_doppler c = 0 -> nlos_doppler c = 0 ->
  blockwise_exact (in_samples (max_delay c) (f_bandwidth c)) (f_tx c) (fading_propagate c).
Proof.
  intros c Hb Ht Hl Hn. apply (blockwise_steady (fading_taps c) _ _ (Nat.min (f_rx c) (a_rx c))).
  - unfold steady, fading_taps. rewrite Forall_map. apply Forall_forall. intros p _ r t i k. cbn [weight]. rewrite (impulse_steady c p i k Hl Hn). reflexivity.
  - intros p Hp. unfold fading_taps in Hp. apply in_map_iff in Hp as [q [<- Hq]]. cbn [td]. apply path_delay_max; assumption.
  - intros b Hs. destruct (fading_received c b Hb ltac:(rewrite Nat.min_l by exact Ht; exact Hs)) as [y [Ey [Sy [Ny [Oy Xy]]]]]. exists y. split; [exact Ey|]. split; [exact Sy|]. split; [exact Ny|].
    split; [exact Oy|exact Xy].
Qed.
Print Assumptions C72_fading_propagation_is_blockwise.
(** A signal of a single block is the block, delayed by its offset *)
Theorem C72_single_block : forall scale nr prop d b y, 0 < scale -> prop b = Ok y -> offset y = offset b ->
  exists out, channel_propagate scale nr (streams b) prop (Sparse d [b]) = Ok (Dense (d + INR (offset b)) out) /\ same_samples out y.
Proof.
  intros scale nr prop d b y Hs Ey Ho. exists (Blk (streams y) (samples y) 0 (x y)). split.
  - unfold channel_propagate. destruct (Rle_dec scale 0) as [H|_]; [lra|]. cbn [num_streams blocks]. rewrite Nat.eqb_refl. cbn [negb mapM]. rewrite Ey. cbn [bind create sig_delay]. rewrite Ho. reflexivity.
  - repeat split.
Qed.
Print Assumptions C72_single_block.
(** No signal arrives over a channel without scale *)
Theorem C72_zero_scale : forall scale nr nt prop s, scale <= 0 -> exists b, channel_propagate scale nr nt prop s = Ok (Dense (sig_delay s) b) /\ streams b = nr /\ samples b = 0%nat.
Proof. intros scale nr nt prop s H. unfold channel_propagate. destruct (Rle_dec scale 0); [|contradiction]. eexists. split; [reflexivity|]. split; reflexivity. Qed.
Print Assumptions C72_zero_scale.
(** Blocks closer than the channel's memory: the end of the first one is overwritten by the beginning of the second one *)
Definition unit_delay : delay_sample := Delay 1 1 1 1 1 (fun _ _ => RtoC 1).
Lemma unit_delay_samples : in_samples (d_delay unit_delay) (d_bandwidth unit_delay) = 1%nat.
Proof. unfold in_samples. cbn [unit_delay d_delay d_bandwidth]. rewrite Rmult_1_r, rint_Z. reflexivity. Qed.
Definition pulse (at_ : nat) : blk := Blk 1 1 at_ (fun _ _ => RtoC 1).
Lemma one_neq_zero : RtoC 1 <> RtoC 0.
Proof. intros H. apply RtoC_inj in H. lra. Qed.
Theorem C72_blockwise_without_gaps_refuted : exists c, ~ blockwise_exact 0 (d_tx c) (fun s => Ok (delay_propagate c s)).
Proof.
  exists unit_delay. intros H. destruct (H 1 1%nat 0 [pulse 0; pulse 1] ltac:(lra) ltac:(cbn; lia) ltac:(cbn; lia) ltac:(repeat constructor)) as [whole [out [z [w [E1 [E2 [E3 [E4 [Ss [Sn Sx]]]]]]]]]].
  unfold channel_propagate in E2. destruct (Rle_dec 1 0) as [G|_]; [lra|]. cbn [num_streams blocks pulse streams d_tx unit_delay Nat.eqb negb mapM bind create sig_delay] in E2. injection E2 as E2.
  rewrite <- E2 in E3. unfold to_dense, last_end in E1, E3. cbn [rev List.app fold_left bind pulse offset samples delay_propagate] in E1, E3. rewrite unit_delay_samples in E3.
  cbn [Nat.add Nat.leb bind] in E1, E3.
  assert (Ez : z = Blk 1 3 0 (x z)) by (injection E3 as <-; reflexivity).
  assert (Xz : x z 0%nat 1%nat = RtoC 0) by (clear Ez; injection E3 as <-; cbn; change (in_samples 1 1) with (in_samples (d_delay unit_delay) (d_bandwidth unit_delay)); rewrite unit_delay_samples; reflexivity).
  assert (Xw : x w 0%nat 1%nat = RtoC 1).
  { injection E4 as <-. cbn [delay_propagate x]. rewrite unit_delay_samples. cbn [Nat.ltb Nat.leb Nat.sub unit_delay d_gain d_response]. injection E1 as <-. cbn. ring. }
  apply one_neq_zero. rewrite <- Xw, <- Xz. symmetry. apply Sx; rewrite Ez; cbn; lia.
Qed.
Print Assumptions C72_blockwise_without_gaps_refuted.
(** Motion: the phase of every block starts anew *)
Definition moving : fading_sample := Fading 1 1 1 1 1 1 PI 0 [Path 0 1 1 0 0 0 []] (fun _ _ => RtoC 1).
Lemma moving_impulse : forall i, impulse moving (Path 0 1 1 0 0 0 []) i = cis (PI * INR i).
Proof.
  intros i. unfold impulse. cbn [moving nlos los_gain nlos_gain los_doppler nlos_doppler los_angle los_phase f_gain power f_bandwidth length csum]. rewrite cos_0. replace (1 * 1) with 1 by ring. rewrite sqrt_1.
  replace (PI * (INR i / 1) * 1 + 0) with (PI * INR i) by (field). ring.
Qed.
Lemma moving_max : in_samples (max_delay moving) (f_bandwidth moving) = 0%nat.
Proof. unfold in_samples, max_delay. cbn [moving paths map p_delay fold_right f_bandwidth]. rewrite Rmax_left by lra. rewrite Rmult_1_r, rint_Z. reflexivity. Qed.
Lemma moving_path : path_delay moving (Path 0 1 1 0 0 0 []) = 0%nat.
Proof. unfold path_delay, in_samples. cbn [moving p_delay f_bandwidth]. rewrite Rmult_1_r, rint_Z. reflexivity. Qed.
Lemma moving_received : forall b r j, streams b = 1%nat -> (j < samples b)%nat -> received (fading_taps moving) b r j = (cis (PI * INR j) * x b 0%nat j)%C.
Proof.
  intros b r j Hs Hj. unfold received, fading_taps. rewrite total_map. cbn [moving paths total td weight f_response]. fold moving. rewrite Hs. cbn [csum].
  rewrite moving_path, moving_impulse. rewrite Nat.sub_0_r. cbn [Nat.leb Nat.add andb]. replace (Nat.ltb j (samples b)) with true by (symmetry; apply Nat.ltb_lt; exact Hj). ring.
Qed.
Theorem C72_blockwise_in_motion_refuted : exists c, 0 < f_bandwidth c /\ f_tx c = a_tx c /\ forall gap, ~ blockwise_exact gap (f_tx c) (fading_propagate c).
Proof.
  exists moving. split; [cbn; lra|]. split; [reflexivity|]. intros gap H. set (g := (2 * gap + 1)%nat).
  destruct (H 1 1%nat 0 [pulse 0; pulse g] ltac:(lra) ltac:(cbn; lia) ltac:(cbn; unfold g; lia) ltac:(repeat constructor)) as [whole [out [z [w [E1 [E2 [E3 [E4 [Ss [Sn Sx]]]]]]]]]].
  destruct (fading_received moving (pulse 0) ltac:(cbn; lra) eq_refl) as [y0 [F0 [S0 [N0 [O0 X0]]]]]. destruct (fading_received moving (pulse g) ltac:(cbn; lra) eq_refl) as [y1 [F1 [S1 [N1 [O1 X1]]]]].
  rewrite moving_max in N0, N1. cbn [pulse samples Nat.add moving f_rx a_rx Nat.min offset] in *.
  unfold channel_propagate in E2. destruct (Rle_dec 1 0) as [G|_]; [lra|]. cbn [num_streams blocks pulse streams moving f_tx Nat.eqb negb mapM] in E2. fold (pulse 0) (pulse g) moving in E2. rewrite F0, F1 in E2. cbn [bind create sig_delay] in E2. injection E2 as E2.
  destruct (to_dense_wave [pulse 0; pulse g]) as [w' [G1 [G2 [G3 [G4 G5]]]]]; [cbn; unfold g; lia|].
  destruct (to_dense_wave [y0; y1]) as [z' [K1 [K2 [K3 [K4 K5]]]]]; [cbn [spaced]; rewrite O0, N0, O1; split; [unfold g; lia|exact I]|].
  rewrite <- E2, K1 in E3. injection E3 as <-. rewrite G1 in E1. injection E1 as <-.
  cbn [moving f_tx] in *. unfold last_end in G2, K2. cbn [rev List.app offset samples pulse] in G2, K2. rewrite O1, N1 in K2. cbn [streams pulse] in G4. rewrite S0 in K4.
  destruct (fading_received moving w' ltac:(cbn; lra) ltac:(rewrite G4; reflexivity)) as [wy [F2 [S2 [N2 [_ X2]]]]]. rewrite E4 in F2. injection F2 as <-. rewrite moving_max, G2 in N2.
  assert (V : x z' 0%nat g = x w 0%nat g) by (apply Sx; [rewrite K4; lia|rewrite K2; lia]).
  rewrite K5, X2 in V by (try (rewrite S2; cbn; lia); rewrite N2; lia). rewrite moving_received in V by (try exact G4; rewrite G2; lia). rewrite G5 in V.
  assert (W1 : wave [y0; y1] 0 g = RtoC 1).
  { cbn [wave existsb]. rewrite O1, N1. replace (Nat.leb g g) with true by (symmetry; apply Nat.leb_le; lia). replace (Nat.ltb g (g + 1)) with true by (symmetry; apply Nat.ltb_lt; lia). cbn [andb orb].
    rewrite Nat.sub_diag. rewrite X1 by (try (rewrite S1; lia); rewrite N1; lia). rewrite moving_received by (try reflexivity; cbn; lia). cbn [pulse x INR]. rewrite Rmult_0_r, cis_0. ring. }
  assert (W2 : wave [pulse 0; pulse g] 0 g = RtoC 1).
  { cbn [wave existsb pulse offset samples]. replace (Nat.leb g g) with true by (symmetry; apply Nat.leb_le; lia). replace (Nat.ltb g (g + 1)) with true by (symmetry; apply Nat.ltb_lt; lia). cbn [andb orb]. reflexivity. }
  rewrite W1, W2, Cmult_1_r in V. assert (Cv : cis (PI * INR g) = RtoC (-1)).
  { unfold g. rewrite plus_INR, mult_INR. change (INR 2) with (1 + 1). change (INR 1) with 1. unfold cis. replace (PI * ((1 + 1) * INR gap + 1)) with (PI + 2 * INR gap * PI) by ring. rewrite cos_period, sin_period, cos_PI, sin_PI. reflexivity. }
  rewrite Cv in V. apply RtoC_inj in V. lra.
Qed.
Print Assumptions C72_blockwise_in_motion_refuted.
Example C72_met : spaced 2 [pulse 0; pulse 3; Blk 1 2 7 (fun _ _ => RtoC 0)] /\ los_doppler (two_paths 1 1) = 0 /\ nlos_doppler (two_paths 1 1) = 0 /\
  in_samples (max_delay (two_paths 1 1)) (f_bandwidth (two_paths 1 1)) = 2%nat.
Proof. split; [cbn; lia|]. split; [reflexivity|]. split; [reflexivity|]. apply two_max_samples. Qed.

(** ** C73: conversions of channel state information and reciprocity *)
(** Frequency responses determine the impulse responses, at every sample that is kept *)
Theorem C73_impulse_round_trip : forall c n, format c = Impulse -> (ntaps c <= n)%nat ->
  let e := to_impulse (to_frequency c (Some n)) in
  format e = Impulse /\ nrx e = nrx c /\ ntx e = ntx c /\ ntaps e = n /\ nsamples e = Nat.min n (nsamples c) /\
  (forall r t s k, (k < ntaps c)%nat -> h e r t s k = h c r t s k) /\
  (forall r t s k, (ntaps c <= k < n)%nat -> h e r t s k = RtoC 0).
Proof.
  intros c n Hf Hn e.
  assert (E : e = Csi Impulse (nrx c) (ntx c) (Nat.min n (nsamples c)) n (fun r t s => ifft_at Backward (fft_at Backward (fun k => if Nat.ltb k (ntaps c) then h c r t s k else RtoC 0) n) n) n).
  { unfold e, to_frequency. rewrite Hf. reflexivity. }
  rewrite E. cbn [format nrx ntx ntaps nsamples h]. repeat (split; [reflexivity|]). split; intros r t s k Hk; rewrite ifft_fft_at by lia.
  - replace (Nat.ltb k (ntaps c)) with true by (symmetry; apply Nat.ltb_lt; exact Hk). reflexivity.
  - replace (Nat.ltb k (ntaps c)) with false by (symmetry; apply Nat.ltb_ge; lia). reflexivity.
Qed.
Print Assumptions C73_impulse_round_trip.
Theorem C73_frequency_round_trip : forall c, format c = Frequency -> bins c = ntaps c -> (nsamples c <= ntaps c)%nat ->
  let e := to_frequency (to_impulse c) None in
  format e = Frequency /\ nrx e = nrx c /\ ntx e = ntx c /\ ntaps e = ntaps c /\ nsamples e = nsamples c /\
  forall r t s k, (k < ntaps c)%nat -> h e r t s k = h c r t s k.
Proof.
  intros c Hf Hb Hn e.
  assert (E : e = Csi Frequency (nrx c) (ntx c) (Nat.min (bins c) (nsamples c)) (bins c) (fun r t s => fft_at Backward (fun k => if Nat.ltb k (ntaps c) then ifft_at Backward (h c r t s) (ntaps c) k else RtoC 0) (bins c)) (bins c)).
  { unfold e, to_impulse. rewrite Hf. reflexivity. }
  rewrite E. cbn [format nrx ntx ntaps nsamples h]. rewrite Hb. repeat (split; [reflexivity|]). split; [lia|]. intros r t s k Hk.
  rewrite (fft_at_ext Backward _ (ifft_at Backward (h c r t s) (ntaps c))).
  - apply fft_ifft_at. exact Hk.
  - intros i Hi. replace (Nat.ltb i (ntaps c)) with true by (symmetry; apply Nat.ltb_lt; exact Hi). reflexivity.
Qed.
Print Assumptions C73_frequency_round_trip.
(** With the default number of bins all samples beyond the number of taps are lost *)
Theorem C73_conversions_keep_all_samples_refuted : exists c, format c = Impulse /\ nsamples c = 5%nat /\ nsamples (to_impulse (to_frequency c None)) = 1%nat.
Proof. exists (ideal_state 1 1 1 5 1). repeat split. Qed.
Print Assumptions C73_conversions_keep_all_samples_refuted.
(** The linear transformation of a state with one transmitting antenna is its propagation *)
Theorem C73_linear_is_propagation : forall c s, format c = Impulse -> ntx c = 1%nat -> (0 < ntaps c)%nat -> streams s = 1%nat -> samples s = nsamples c ->
  exists y, csi_propagate c s = Ok y /\ samples y = linear_rows c /\ samples s = linear_columns c /\
  forall r o, (r < streams y)%nat -> (o < samples y)%nat -> x y r o = csum (fun i => linear c r 0 o i * x s 0%nat i)%C (samples s).
Proof.
  intros c s Hf H1 Ht Hs Hn. destruct (csi_propagate_received c s Hf Ht ltac:(congruence) ltac:(lia)) as [y [Ey [Sy [Ny Xy]]]].
  exists y. split; [exact Ey|]. unfold linear_rows, linear_columns. rewrite Hf. split; [lia|]. split; [exact Hn|]. intros r o Hr Ho. rewrite Sy in Hr. rewrite Xy by exact Hr.
  unfold received, csi_taps. rewrite total_map. cbn [td weight]. rewrite Hs, total_seq. cbn [csum].
  rewrite (csum_ext _ (fun d => csum (fun i => if Nat.eqb i (o - d) then if Nat.leb d o then (h c r 0 i d * x s 0%nat i)%C else RtoC 0 else RtoC 0) (samples s))).
  - rewrite csum_swap. apply csum_ext. intros i Hi. rewrite linear_impulse by (try assumption; lia).
    rewrite (csum_ext _ (fun d => if Nat.eqb d (o - i) then if Nat.leb i o then (h c r 0 i d * x s 0%nat i)%C else RtoC 0 else RtoC 0)).
    + rewrite (csum_pick (fun d => if Nat.leb i o then (h c r 0 i d * x s 0%nat i)%C else RtoC 0)). destruct (Nat.leb_spec i o), (Nat.ltb_spec (o - i) (ntaps c)), (Nat.ltb_spec o (i + ntaps c)); cbn [andb]; try lia; try ring.
    + intros d Hd. destruct (Nat.eqb_spec i (o - d)), (Nat.eqb_spec d (o - i)), (Nat.leb_spec d o), (Nat.leb_spec i o); try reflexivity; try lia.
  - intros d Hd. rewrite (csum_pick (fun i => if Nat.leb d o then (h c r 0 i d * x s 0%nat i)%C else RtoC 0)). rewrite Cplus_0_l.
    destruct (Nat.leb_spec d o), (Nat.ltb_spec (o - d) (samples s)), (Nat.ltb_spec o (d + samples s)); cbn [andb]; try reflexivity; lia.
Qed.
Print Assumptions C73_linear_is_propagation.
(** The one of a frequency response is diagonal *)
Theorem C73_linear_frequency : forall c r t s k i, format c = Frequency -> (r < nrx c)%nat -> (t < ntx c)%nat -> (s < nsamples c)%nat -> (k < ntaps c)%nat ->
  linear c r t (s * ntaps c + k) i = if Nat.eqb (s * ntaps c + k) i then h c r t s k else RtoC 0.
Proof.
  intros c r t s k i Hf Hr Ht Hs Hk. rewrite linear_frequency by (try assumption; nia). destruct (divmod s (ntaps c) k Hk) as [-> ->]. reflexivity.
Qed.
Print Assumptions C73_linear_frequency.
(** With two transmitting antennas the weights are attributed to the wrong one *)
Theorem C73_linear_several_transmitters_refuted : exists c, format c = Impulse /\ ntx c = 2%nat /\
  (forall r i k, h c r 0 i k = RtoC 0) /\ exists o i, (o < linear_rows c)%nat /\ (i < linear_columns c)%nat /\ linear c 0 0 o i <> RtoC 0.
Proof.
  exists (impulse_csi 1 2 2 1 (fun _ t _ _ => if Nat.eqb t 1 then RtoC 1 else RtoC 0)). split; [reflexivity|]. split; [reflexivity|]. split; [reflexivity|].
  exists 0%nat, 0%nat. split; [cbn; lia|]. split; [cbn; lia|]. unfold linear. cbn. rewrite !Cplus_0_l, Cplus_0_r. exact one_neq_zero.
Qed.
Print Assumptions C73_linear_several_transmitters_refuted.

(** Reciprocity: [there] propagates from device A to device B, [back] the other way round.  What antenna r of B receives if only antenna t
    of A transmits is what antenna t of A receives if only antenna r of B transmits the same samples *)
Definition only (n t : nat) (len at_ : nat) (v : nat -> C) : blk := Blk n len at_ (fun a j => if Nat.eqb a t then v j else RtoC 0).
Definition reciprocal_channels (na nb : nat) (there back : blk -> result blk) : Prop := forall t r len at_ v, (t < na)%nat -> (r < nb)%nat ->
  exists y z, there (only na t len at_ v) = Ok y /\ back (only nb r len at_ v) = Ok z /\ streams y = nb /\ streams z = na /\ samples y = samples z /\
  forall j, (j < samples y)%nat -> x y r j = x z t j.
Lemma received_only : forall taps n t len at_ v r j, (t < n)%nat ->
  received taps (only n t len at_ v) r j = total (fun p => if (Nat.leb (td p) j && Nat.ltb j (td p + len))%bool then (weight p r t (j - td p)%nat * v (j - td p)%nat)%C else RtoC 0) taps.
Proof.
  intros taps n t len at_ v r j Ht. unfold received. apply total_ext. intros p _. cbn [only streams samples x].
  rewrite (csum_ext _ (fun a => if Nat.eqb a t then if (Nat.leb (td p) j && Nat.ltb j (td p + len))%bool then (weight p r a (j - td p)%nat * v (j - td p)%nat)%C else RtoC 0 else RtoC 0)).
  - rewrite (csum_pick (fun a => if (Nat.leb (td p) j && Nat.ltb j (td p + len))%bool then (weight p r a (j - td p)%nat * v (j - td p)%nat)%C else RtoC 0)).
    replace (Nat.ltb t n) with true by (symmetry; apply Nat.ltb_lt; exact Ht). reflexivity.
  - intros a _. destruct (Nat.eqb a t), (_ && _)%bool; try reflexivity; ring.
Qed.
Theorem C73_ideal_channels_are_reciprocal : forall gain na nb,
  reciprocal_channels na nb (fun s => Ok (fst (ideal_propagate gain nb na s))) (fun s => Ok (fst (ideal_propagate gain na nb s))).
Proof.
  intros gain na nb t r len at_ v Ht Hr. eexists. eexists. split; [reflexivity|]. split; [reflexivity|].
  destruct (ideal_dimensions gain nb na (only na t len at_ v)) as [S1 [N1 _]]. destruct (ideal_dimensions gain na nb (only nb r len at_ v)) as [S2 [N2 _]].
  split; [exact S1|]. split; [exact S2|]. split; [rewrite N1, N2; reflexivity|]. intros j Hj. rewrite N1 in Hj.
  rewrite !ideal_received by (try assumption; reflexivity). rewrite !received_only by assumption. cbn [ideal_taps total td weight]. unfold ideal_response.
  rewrite (orb_comm (Nat.eqb nb 1)). rewrite (Nat.eqb_sym r t). reflexivity.
Qed.
Print Assumptions C73_ideal_channels_are_reciprocal.
(** The response of a delay channel is the product of the polarimetric responses of both arrays (delay.py 79-100) *)
Definition array_response (rx tx : nat -> nat -> C) (r t : nat) : C := csum (fun p => rx r p * tx t p)%C 2.
Theorem C73_delay_channels_are_reciprocal : forall na nb delay bandwidth gain A B,
  reciprocal_channels na nb (fun s => Ok (delay_propagate (Delay nb na delay bandwidth gain (array_response B A)) s))
    (fun s => Ok (delay_propagate (delay_reciprocal (Delay nb na delay bandwidth gain (array_response B A)) (array_response A B) bandwidth) s)).
Proof.
  intros na nb delay bandwidth gain A B t r len at_ v Ht Hr. eexists. eexists. split; [reflexivity|]. split; [reflexivity|]. split; [reflexivity|]. split; [reflexivity|]. split; [reflexivity|].
  intros j Hj. rewrite !delay_received by exact Hj. rewrite !received_only by assumption. unfold delay_taps, delay_reciprocal. cbn [total td weight d_delay d_bandwidth d_gain d_response].
  replace (array_response A B t r) with (array_response B A r t) by (unfold array_response; apply csum_ext; intros; ring). reflexivity.
Qed.
Print Assumptions C73_delay_channels_are_reciprocal.
Theorem C73_fading_channels_are_reciprocal : forall c, 0 <= f_bandwidth c -> f_rx c = a_rx c -> f_tx c = a_tx c ->
  reciprocal_channels (f_tx c) (f_rx c) (fading_propagate c) (fading_propagate (fading_reciprocal c (f_tx c) (f_rx c) (f_bandwidth c))).
Proof.
  intros c Hb Hr Ht t r len at_ v Ht' Hr'. set (c' := fading_reciprocal c (f_tx c) (f_rx c) (f_bandwidth c)).
  destruct (fading_received c (only (f_tx c) t len at_ v) Hb ltac:(cbn [only streams]; lia)) as [y [Ey [Sy [Ny [_ Xy]]]]].
  destruct (fading_received c' (only (f_rx c) r len at_ v) Hb ltac:(cbn [only streams c' fading_reciprocal f_tx a_tx]; lia)) as [z [Ez [Sz [Nz [_ Xz]]]]].
  exists y, z. split; [exact Ey|]. split; [exact Ez|]. cbn [c' fading_reciprocal f_rx a_rx] in Sz. split; [lia|]. split; [lia|]. split; [rewrite Ny, Nz; reflexivity|]. intros j Hj.
  rewrite Xy by (try exact Hj; lia). assert (Hz : samples z = samples y) by (rewrite Ny, Nz; reflexivity). rewrite Xz by lia. rewrite !received_only by assumption. unfold fading_taps. rewrite !total_map. reflexivity.
Qed.
Print Assumptions C73_fading_channels_are_reciprocal.
(** The states of both directions are reciprocal to each other, and the reciprocal of a reciprocal state is the state *)
Theorem C73_states_are_reciprocal : forall c n m e, fading_state c n m = Ok e ->
  exists e', fading_state (fading_reciprocal c (f_tx c) (f_rx c) (f_bandwidth c)) n m = Ok e' /\
  nrx e' = ntx e /\ ntx e' = nrx e /\ nsamples e' = nsamples e /\ ntaps e' = ntaps e /\ (forall r t i k, h e' t r i k = h e r t i k) /\ e' = reciprocal e /\ reciprocal e' = e.
Proof.
  intros c n m e He. unfold fading_state in *. cbv zeta in *.
  change (path_delay (fading_reciprocal c (f_tx c) (f_rx c) (f_bandwidth c))) with (path_delay c). change (impulse (fading_reciprocal c (f_tx c) (f_rx c) (f_bandwidth c))) with (impulse c).
  change (max_delay (fading_reciprocal c (f_tx c) (f_rx c) (f_bandwidth c))) with (max_delay c). cbn [fading_reciprocal f_bandwidth paths a_rx a_tx f_response].
  set (F := fold_left _ _ _) in *. destruct F as [si|ex]; [|discriminate He]. cbn [bind] in *. injection He as <-. eexists. split; [reflexivity|]. repeat split.
Qed.
Print Assumptions C73_states_are_reciprocal.
Example C73_met : let c := impulse_csi 2 1 3 2 (fun r _ i k => RtoC (INR (r + i + k))) in format c = Impulse /\ (ntaps c <= 4)%nat /\ ntx c = 1%nat /\ (0 < ntaps c)%nat /\ linear_rows c = 4%nat /\
  let f := to_frequency c (Some 3%nat) in format f = Frequency /\ bins f = ntaps f /\ (nsamples f <= ntaps f)%nat /\
  fading_state (two_paths 1 1) 1 3 <> Raise IndexError.
Proof.
  cbv zeta. cbn. repeat split; try lia. destruct (fading_state_ok (two_paths 1 1) 1 3) as [e [Ee _]]; [|rewrite Ee; discriminate].
  rewrite two_max_samples. cbn [Nat.min Nat.add]. repeat constructor; rewrite two_delays; cbn [p_delay]; rewrite rint_Z; cbn; lia.
Qed.

(** ** C74: transmitted signals are left as they are, powers of fading channels *)
(** Unless at least two antennas receive and at least as many transmit, the propagated block is unchanged *)
Theorem C74_ideal_propagation_keeps_its_argument : forall gain nr nt s, (nt <= 1 \/ nr <= 1 \/ nt < nr)%nat -> nt <> 0%nat -> snd (ideal_propagate gain nr nt s) = s.
Proof.
  intros gain nr nt s H Hnt. unfold ideal_propagate. destruct (Nat.eqb_spec nt 1); [reflexivity|]. destruct (Nat.eqb_spec nr 1); [reflexivity|]. destruct (Nat.eqb_spec nr 0); [reflexivity|].
  destruct (Nat.ltb_spec nt nr); [reflexivity|]. lia.
Qed.
Print Assumptions C74_ideal_propagation_keeps_its_argument.
Theorem C74_lossless_propagation_keeps_its_argument : forall nr nt s, same_samples (snd (ideal_propagate 1 nr nt s)) s.
Proof.
  intros nr nt s. unfold ideal_propagate. destruct (Nat.eqb nt 1); [repeat split|]. destruct (Nat.eqb nr 1); [repeat split|]. destruct (Nat.eqb nr 0); [repeat split|]. destruct (Nat.ltb nt nr); [repeat split|].
  split; [reflexivity|]. split; [reflexivity|]. intros r j _ _. cbn [snd x]. rewrite sqrt_1. destruct (Nat.ltb r nr); [ring|reflexivity].
Qed.
Print Assumptions C74_lossless_propagation_keeps_its_argument.
(** Propagating the same signal twice does not give the same result twice *)
Theorem C74_propagation_is_repeatable_refuted : exists gain nr nt s, 0 < gain /\ streams s = nt /\
  let first := ideal_propagate gain nr nt s in let second := ideal_propagate gain nr nt (snd first) in ~ same_samples (fst first) (fst second).
Proof.
  exists 4, 2%nat, 2%nat, (Blk 2 1 0 (fun _ _ => RtoC 1)). split; [lra|]. split; [reflexivity|]. cbv zeta. intros [_ [_ H]]. specialize (H 0%nat 0%nat ltac:(cbn; lia) ltac:(cbn; lia)).
  cbn [ideal_propagate Nat.eqb Nat.ltb Nat.leb fst snd x] in H. replace 4 with (2 * 2) in H by ring. rewrite sqrt_square in H by lra. rewrite !Cmult_1_l, <- RtoC_mult in H. apply RtoC_inj in H. lra.
Qed.
Print Assumptions C74_propagation_is_repeatable_refuted.
(** Rice fading: the squared gains of the specular component and of all sinusoids of the diffuse one add up to one, in the ratio of the factor *)
Theorem C74_rice_gains : forall k n, 0 <= k -> (0 < n)%nat -> let '(l, d) := rice_gains (Some k) n in
  0 <= l /\ 0 <= d /\ l * l + INR n * (d * d) = 1 /\ l * l = k * (INR n * (d * d)).
Proof.
  intros k n Hk Hn. cbn [rice_gains]. assert (Hn' : 0 < INR n) by (apply lt_0_INR; exact Hn).
  assert (P1 : 0 <= k / (1 + k)) by (apply Rcomplements.Rdiv_le_0_compat; lra). assert (P2 : 0 <= 1 / ((1 + k) * INR n)) by (apply Rcomplements.Rdiv_le_0_compat; nra).
  split; [apply sqrt_pos|]. split; [apply sqrt_pos|]. rewrite !sqrt_sqrt by assumption. split; field; split; lra.
Qed.
Print Assumptions C74_rice_gains.
Theorem C74_infinite_rice_factor : forall c p i n, (los_gain p, nlos_gain p) = rice_gains None n -> 0 <= f_gain c * power p ->
  Cmod (impulse c p i) * Cmod (impulse c p i) = f_gain c * power p.
Proof.
  intros c p i n E Hp. cbn [rice_gains] in E. apply pair_equal_spec in E as [E1 E2]. unfold impulse. cbv zeta. rewrite E1, E2. set (S := csum _ _). generalize (los_doppler c * (INR i / f_bandwidth c) * cos (los_angle p) + los_phase p). intros a.
  replace (RtoC 0 * S + RtoC 1 * cis a)%C with (cis a) by ring. rewrite Cmod_mult. assert (M : Cmod (cis a) = 1).
  { unfold Cmod, cis. cbn [fst snd]. replace (cos a ^ 2 + sin a ^ 2) with 1; [apply sqrt_1|]. pose proof (sin2_cos2 a) as H. unfold Rsqr in H. cbn. lra. }
  rewrite M, Cmod_R, Rabs_pos_eq by apply sqrt_pos. rewrite Rmult_1_l. apply sqrt_sqrt. exact Hp.
Qed.
Print Assumptions C74_infinite_rice_factor.
Lemma Cmod_unit_sum : forall f n, (forall k, Cmod (f k) = 1) -> Cmod (csum f n) <= INR n.
Proof. intros f n Hf. induction n as [|n IH]; [cbn [csum INR]; rewrite Cmod_0; lra|]. cbn [csum]. eapply Rle_trans; [apply Cmod_triangle|]. rewrite Hf, S_INR. lra. Qed.
(** No fading amplitude exceeds that of all components in phase *)
Theorem C74_peak_amplitude : forall c p i, 0 <= los_gain p -> 0 <= nlos_gain p -> Cmod (impulse c p i) <= (los_gain p + INR (length (nlos p)) * nlos_gain p) * sqrt (f_gain c * power p).
Proof.
  intros c p i Hl Hn. unfold impulse. cbv zeta. rewrite Cmod_mult, (Cmod_R (sqrt _)), (Rabs_pos_eq (sqrt _)) by apply sqrt_pos. apply Rmult_le_compat_r; [apply sqrt_pos|].
  assert (M : forall a, Cmod (cis a) = 1).
  { intros a. unfold Cmod, cis. cbn [fst snd]. replace (cos a ^ 2 + sin a ^ 2) with 1; [apply sqrt_1|]. pose proof (sin2_cos2 a) as H. unfold Rsqr in H. cbn. lra. }
  eapply Rle_trans; [apply Cmod_triangle|]. rewrite !Cmod_mult, !Cmod_R, !Rabs_pos_eq by assumption. rewrite M, Rmult_1_r, Rplus_comm. apply Rplus_le_compat_l. rewrite Rmult_comm. apply Rmult_le_compat_r; [exact Hn|].
  apply Cmod_unit_sum. intros k. cbv beta. destruct (nth k (nlos p) (0, 0)); apply M.
Qed.
Print Assumptions C74_peak_amplitude.
Example C74_met : rice_gains (Some 1) 2 = (sqrt (1 / (1 + 1)), sqrt (1 / ((1 + 1) * INR 2))) /\ (let c := moving in let p := Path 0 1 1 0 0 0 [] in (los_gain p, nlos_gain p) = rice_gains None 3 /\ 0 <= f_gain c * power p /\ 0 <= nlos_gain p) /\ (1 <= 1 \/ 2 <= 1 \/ 1 < 2)%nat.
Proof. split; [reflexivity|]. split; [|lia]. cbv zeta. cbn. repeat split; lra. Qed.
