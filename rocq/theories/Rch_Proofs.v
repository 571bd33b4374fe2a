(** Proofs about radar paths and the propagation over them. *)
From Coq Require Import List Reals ZArith Bool Arith Lra Lia Permutation.
From Coquelicot Require Import Complex Coquelicot.
From Verif Require Import Base BaseLemmas Cplx Cplx_Proofs Rot_Model Rot_Spec Rot_Proofs Ant_Model Ant_Spec Ant_Proofs Chan_Model Chan_Spec Chan_Proofs Rch_Model Rch_Spec.
Import ListNotations.
Open Scope R_scope.

Lemma light_pos : 0 < speed_of_light. Proof. unfold speed_of_light. lra. Qed.
Lemma norm_nonneg : forall v, 0 <= norm v. Proof. intros. apply sqrt_pos. Qed.
Lemma vsub_zero : forall a b, vsub a b = zero -> a = b.
Proof. intros [a1 a2 a3] [b1 b2 b3] H. unfold vsub, zero in H. cbn in H. injection H. intros. f_equal; lra. Qed.
Lemma norm_apart : forall a b, a <> b -> 0 < norm (vsub a b).
Proof.
  intros a b H. destruct (Rle_lt_or_eq_dec _ _ (norm_nonneg (vsub a b))) as [E | E]; [ exact E | ].
  exfalso. apply H. apply vsub_zero. apply norm_zero. symmetry. exact E.
Qed.
Lemma from_cartesian_apart : forall v, 0 < norm v -> from_cartesian v true = Ok (vscale (/ norm v) v).
Proof. intros v H. unfold from_cartesian. destruct (Req_EM_T (norm v) 0); [ lra | reflexivity ]. Qed.
Lemma norm_vsub_sym : forall a b, norm (vsub a b) = norm (vsub b a).
Proof. intros. unfold norm. f_equal. unfold dot, vsub. cbn [vx vy vz]. ring. Qed.
Lemma norm_rate : forall p v, 0 < norm p -> is_derive (fun t => norm (vadd p (vscale t v))) 0 (dot (vscale (/ norm p) p) v).
Proof.
  intros p v H. assert (Hd : 0 < dot p p). { rewrite <- norm_sqr. nra. }
  unfold norm at 1, dot at 1, vadd, vscale. cbn [vx vy vz]. unfold dot in Hd. auto_derive.
  - rewrite !Rmult_0_l, !Rplus_0_r. exact Hd.
  - unfold norm, dot. cbn [vx vy vz]. rewrite !Rmult_0_l, !Rplus_0_r. field. apply Rgt_not_eq. apply sqrt_lt_R0. exact Hd.
Qed.
Lemma distance_rate : forall a va b vb, 0 < norm (vsub a b) ->
  is_derive (fun t => distance (at_time a va t) (at_time b vb t)) 0 (dot (vscale (/ norm (vsub a b)) (vsub a b)) (vsub va vb)).
Proof.
  intros a va b vb H. apply (is_derive_ext (fun t => norm (vadd (vsub a b) (vscale t (vsub va vb))))).
  - intros t. unfold distance, at_time. f_equal. apply vec_eq; cbn; ring.
  - apply norm_rate. exact H.
Qed.
Lemma lagrange : forall a b, dot a b ^ 2 <= dot a a * dot b b.
Proof.
  intros [a1 a2 a3] [b1 b2 b3]. unfold dot. cbn [vx vy vz].
  assert (H1 := pow2_ge_0 (a1 * b2 - a2 * b1)). assert (H2 := pow2_ge_0 (a1 * b3 - a3 * b1)). assert (H3 := pow2_ge_0 (a2 * b3 - a3 * b2)). lra.
Qed.
Lemma cauchy_abs : forall a b, Rabs (dot a b) <= norm a * norm b.
Proof.
  intros a b. rewrite <- (Rabs_pos_eq (norm a * norm b)) by (apply Rmult_le_pos; apply norm_nonneg).
  apply Rsqr_le_abs_0. unfold Rsqr. assert (H := lagrange a b).
  replace (norm a * norm b * (norm a * norm b)) with (norm a * norm a * (norm b * norm b)) by ring. rewrite !norm_sqr. lra.
Qed.
Lemma triangle : forall a b, norm (vadd a b) <= norm a + norm b.
Proof.
  intros a b. assert (Ha := norm_nonneg a). assert (Hb := norm_nonneg b).
  apply Rsqr_incr_0_var; [ | lra ]. unfold Rsqr. rewrite norm_sqr.
  assert (H := cauchy_abs a b). assert (H1 := Rle_abs (dot a b)). assert (Ea := norm_sqr a). assert (Eb := norm_sqr b).
  replace (dot (vadd a b) (vadd a b)) with (dot a a + 2 * dot a b + dot b b) by (unfold dot, vadd; cbn [vx vy vz]; ring). nra.
Qed.

(** ** Relative velocities *)
Lemma target_velocity : forall q v cs ph a st tx rx, apart (TargetPath q v cs ph a st) tx rx ->
  relative_velocity (TargetPath q v cs ph a st) tx rx =
  Ok (dot (vscale (/ norm (vsub q (position tx))) (vsub q (position tx))) (vsub v (velocity tx)) +
      dot (vscale (/ norm (vsub (position rx) q)) (vsub (position rx) q)) (vsub (velocity rx) v)).
Proof.
  intros q v cs ph a st tx rx [H1 H2]. cbn [relative_velocity].
  rewrite from_cartesian_apart by (apply norm_apart; exact H1). cbn [bind].
  rewrite from_cartesian_apart by (apply norm_apart; congruence). reflexivity.
Qed.
Lemma interference_velocity : forall a st tx rx, apart (InterferencePath a st) tx rx ->
  relative_velocity (InterferencePath a st) tx rx =
  Ok (dot (vsub (velocity tx) (velocity rx)) (vscale (/ norm (vsub (position rx) (position tx))) (vsub (position rx) (position tx)))).
Proof.
  intros a st tx rx H. cbn [relative_velocity apart] in *. rewrite from_cartesian_apart by (apply norm_apart; congruence). reflexivity.
Qed.
Lemma velocity_defined : forall p tx rx, apart p tx rx -> exists v, relative_velocity p tx rx = Ok v.
Proof.
  intros [q v cs ph a st | a st] tx rx H; eexists; [ apply target_velocity; exact H | apply interference_velocity; exact H ].
Qed.
Lemma norm_self : forall a, norm (vsub a a) = 0.
Proof. intros. unfold norm, dot, vsub. cbn [vx vy vz]. replace (_ + _ + _) with 0 by ring. apply sqrt_0. Qed.
Lemma velocity_refused : forall p tx rx, ~ apart p tx rx -> relative_velocity p tx rx = Raise ValueError.
Proof.
  intros [q v cs ph a st | a st] tx rx H; cbn [relative_velocity apart] in *; unfold from_cartesian.
  - destruct (Req_EM_T (norm (vsub q (position tx))) 0) as [E | E]; [ reflexivity | ]. cbn [bind].
    destruct (Req_EM_T (norm (vsub (position rx) q)) 0) as [E' | E']; [ reflexivity | ]. exfalso. apply H. split.
    + intros ->. apply E. apply norm_self.
    + intros ->. apply E'. apply norm_self.
  - destruct (Req_EM_T (norm (vsub (position rx) (position tx))) 0) as [E | E]; [ reflexivity | ]. exfalso. apply H. intros Hp. apply E. rewrite Hp. apply norm_self.
Qed.
Lemma delay_nonneg : forall p tx rx, 0 <= propagation_delay p tx rx.
Proof.
  intros [q v cs ph a st | a st] tx rx; cbn [propagation_delay]; apply Rmult_le_pos; try (left; apply Rinv_0_lt_compat; exact light_pos).
  - assert (H1 := norm_nonneg (vsub q (position tx))). assert (H2 := norm_nonneg (vsub (position rx) q)). lra.
  - apply norm_nonneg.
Qed.

(** ** Responses *)
Lemma array_response : forall a carrier p m, 0 < norm (vsub p (translation (base a))) ->
  cartesian_array_response a carrier p Global m =
  Ok (combine (cartesian_phase_response a carrier p Global m)
        (map (fun e => global_characteristics (akind e) (forwards a e) (vscale (/ norm (vsub p (translation (base a)))) (vsub p (translation (base a))))) (select m (antennas a)))).
Proof. intros a carrier p m H. unfold cartesian_array_response, characteristics. rewrite from_cartesian_apart by exact H. reflexivity. Qed.
Lemma array_response_length : forall a carrier p m l, cartesian_array_response a carrier p Global m = Ok l -> length l = length (select m (antennas a)).
Proof.
  intros a carrier p m l H. unfold cartesian_array_response, characteristics in H.
  destruct (from_cartesian _ true) as [d | e]; cbn [bind] in H; [ | discriminate ]. injection H as <-.
  rewrite combine_length. unfold cartesian_phase_response, topology. rewrite !map_length. apply Nat.min_id.
Qed.
Lemma array_response_entry : forall a carrier p m l i, cartesian_array_response a carrier p Global m = Ok l -> rigid (base a) ->
  (forall e, In e (antennas a) -> rigid (apose e)) -> (i < length l)%nat ->
  exists ph c, nth i l (RtoC 0, (0, 0)) = (ph, c) /\ Cmod ph = 1 /\ 0 <= Ant_Spec.power c <= 1.
Proof.
  intros a carrier p m l i H Ha He Hi. assert (Hl := array_response_length _ _ _ _ _ H).
  unfold cartesian_array_response, characteristics in H.
  destruct (from_cartesian (vsub p (translation (base a))) true) as [d | e] eqn:Ed; cbn [bind] in H; [ | discriminate ]. injection H as <-.
  assert (Hd : dot d d = 1).
  { unfold from_cartesian in Ed. destruct (Req_EM_T (norm (vsub p (translation (base a)))) 0) as [E | E]; [ discriminate | ]. injection Ed as <-. apply normalised. exact E. }
  set (f := fun e => global_characteristics (akind e) (forwards a e) d) in *.
  assert (Hi' : (i < length (select m (antennas a)))%nat) by lia.
  rewrite combine_nth by (unfold cartesian_phase_response, topology; rewrite !map_length; reflexivity).
  eexists _, _. split; [ reflexivity | ].
  destruct (nth_error (select m (antennas a)) i) as [e | ] eqn:En; [ | apply nth_error_None in En; lia ].
  assert (Hin : In e (antennas a)). { apply nth_error_In in En. destruct m; cbn [select] in En; [ apply filter_In in En; tauto | apply filter_In in En; tauto | exact En ]. }
  split.
  - unfold cartesian_phase_response. cbv zeta. rewrite nth_indep with (d' := cis (- (2 * PI * carrier * norm (vsub zero (apply (invert (base a)) p)) / speed_of_light))) by (unfold topology; rewrite !map_length; lia).
    rewrite (map_nth (fun t => cis (- (2 * PI * carrier * norm (vsub t (apply (invert (base a)) p)) / speed_of_light)))). apply cis_modulus.
  - rewrite nth_indep with (d' := f e) by (rewrite map_length; lia). rewrite map_nth. rewrite (nth_error_nth _ _ e En). unfold f.
    assert (Hr : proper (rotation (forwards a e))). { unfold forwards, compose. cbn [rotation]. apply proper_mm; [ exact Ha | apply He; exact Hin ]. }
    rewrite power_kept by assumption. set (v := mv (transpose (rotation (forwards a e))) d).
    assert (Hv : dot v v = 1).
    { unfold v. rewrite dot_proper; [ exact Hd | ]. rewrite <- (minv_proper _ Hr). apply proper_minv. exact Hr. }
    destruct (akind e).
    + rewrite power_ideal. lra.
    + rewrite power_linear. lra.
    + assert (H := power_patch v). lra.
    + apply power_dipole. exact Hv.
Qed.
Definition placed (d : device) : Prop := rigid (base (arr d)) /\ forall e, In e (antennas (arr d)) -> rigid (apose e).
Lemma product_bound : forall u v w y, u ^ 2 + v ^ 2 <= 1 -> w ^ 2 + y ^ 2 <= 1 -> (u * w + v * y) ^ 2 <= 1.
Proof.
  intros u v w y H1 H2. assert (H := pow2_ge_0 (u * y - v * w)). assert (Hp : 0 <= w ^ 2 + y ^ 2) by nra.
  assert ((u ^ 2 + v ^ 2) * (w ^ 2 + y ^ 2) <= 1 * 1) by (apply Rmult_le_compat; nra). nra.
Qed.
Lemma Cmod_RtoC_sqr : forall r, Cmod (RtoC r) ^ 2 = r ^ 2.
Proof. intros r. rewrite Cmod_R. unfold pow. rewrite !Rmult_1_r. rewrite <- Rabs_mult. apply Rabs_pos_eq. nra. Qed.
Lemma inner_bound : forall ta tb ma mb ca pa pb a b i j, placed ta -> placed tb ->
  cartesian_array_response (arr ta) ca pa Global ma = Ok a -> cartesian_array_response (arr tb) ca pb Global mb = Ok b ->
  (i < length a)%nat -> (j < length b)%nat -> Cmod (m_at (inner a b) i j) ^ 2 <= 1.
Proof.
  intros ta tb ma mb ca pa pb a b i j [Ha1 Ha2] [Hb1 Hb2] Ea Eb Hi Hj.
  destruct (array_response_entry _ _ _ _ _ _ Ea Ha1 Ha2 Hi) as (p & [u v] & Ep & Mp & Pp).
  destruct (array_response_entry _ _ _ _ _ _ Eb Hb1 Hb2 Hj) as (q & [w y] & Eq & Mq & Pq).
  unfold inner. cbv zeta. cbn [m_at]. rewrite Ep, Eq. rewrite !Cmod_mult, Mp, Mq, !Rmult_1_l. rewrite Cmod_RtoC_sqr.
  unfold Ant_Spec.power in Pp, Pq. cbn [fst snd] in Pp, Pq. apply product_bound; lra.
Qed.
Lemma four_pi : 0 < 4 * PI. Proof. assert (H := PI_RGT_0). lra. Qed.
Lemma rpower_three_halves : Rpower (4 * PI) (3 / 2) ^ 2 = (4 * PI) ^ 3.
Proof.
  rewrite <- (Rpower_pow 2) by (unfold Rpower; apply exp_pos). rewrite Rpower_mult. rewrite <- (Rpower_pow 3) by exact four_pi.
  f_equal. cbn [INR]. lra.
Qed.
Lemma target_amplitude : forall carrier cs d e, carrier <> 0 -> 0 <= cs -> 0 < d -> 0 < e ->
  (speed_of_light / carrier * sqrt cs / (Rpower (4 * PI) (3 / 2) * d * e)) ^ 2 = (speed_of_light / carrier) ^ 2 * cs / ((4 * PI) ^ 3 * d ^ 2 * e ^ 2).
Proof.
  intros carrier cs d e Hc Hs Hd He. rewrite <- rpower_three_halves. assert (Hr : 0 < Rpower (4 * PI) (3 / 2)) by (unfold Rpower; apply exp_pos).
  set (w := Rpower (4 * PI) (3 / 2)) in *. clearbody w. replace cs with (sqrt cs ^ 2) at 2 by (unfold pow; rewrite Rmult_1_r; apply sqrt_sqrt; exact Hs).
  field. repeat split; lra.
Qed.
Lemma target_response : forall q v cs ph att st tx rx carrier h, propagation_response (TargetPath q v cs ph att st) tx rx carrier = Ok h ->
  exists r t a, cartesian_array_response (arr rx) carrier q Global RX = Ok r /\ cartesian_array_response (arr tx) carrier q Global TX = Ok t /\
    amplitude (TargetPath q v cs ph att st) tx rx carrier = Ok a /\ h = mscale (RtoC a * cis ph)%C (inner r t) /\
    m_rows h = num_receive rx /\ m_cols h = num_transmit tx /\ apart (TargetPath q v cs ph att st) tx rx.
Proof.
  intros q v cs ph att st tx rx carrier h H. cbn [propagation_response] in H.
  destruct (cartesian_array_response (arr rx) carrier q Global RX) as [r | e] eqn:Er; cbn [bind] in H; [ | discriminate ].
  destruct (cartesian_array_response (arr tx) carrier q Global TX) as [t | e] eqn:Et; cbn [bind] in H; [ | discriminate ].
  destruct (amplitude _ tx rx carrier) as [a | e] eqn:Ea; cbn [bind] in H; [ | discriminate ]. injection H as <-.
  exists r, t, a. split; [ reflexivity | ]. split; [ reflexivity | ]. split; [ reflexivity | ]. split; [ reflexivity | ].
  cbn [mscale inner m_rows m_cols]. unfold num_receive, num_transmit. rewrite (array_response_length _ _ _ _ _ Er), (array_response_length _ _ _ _ _ Et).
  split; [ reflexivity | ]. split; [ reflexivity | ].
  unfold cartesian_array_response, characteristics in Er, Et. split; intros Hq.
  - replace (from_cartesian (vsub q (translation (base (arr tx)))) true) with (@Raise vec ValueError) in Et; [ discriminate | ].
    unfold from_cartesian. rewrite Hq. fold (position tx). rewrite norm_self. destruct (Req_EM_T 0 0); [ reflexivity | lra ].
  - replace (from_cartesian (vsub q (translation (base (arr rx)))) true) with (@Raise vec ValueError) in Er; [ discriminate | ].
    unfold from_cartesian. rewrite Hq. fold (position rx). rewrite norm_self. destruct (Req_EM_T 0 0); [ reflexivity | lra ].
Qed.
Lemma interference_response : forall att st tx rx carrier h, propagation_response (InterferencePath att st) tx rx carrier = Ok h ->
  exists r t a, cartesian_array_response (arr rx) carrier (position tx) Global DUPLEX = Ok r /\ cartesian_array_response (arr tx) carrier (position rx) Global DUPLEX = Ok t /\
    amplitude (InterferencePath att st) tx rx carrier = Ok a /\ h = mscale (RtoC a) (inner r t) /\
    m_rows h = length (antennas (arr rx)) /\ m_cols h = length (antennas (arr tx)) /\ apart (InterferencePath att st) tx rx.
Proof.
  intros att st tx rx carrier h H. cbn [propagation_response] in H.
  destruct (cartesian_array_response (arr rx) carrier (position tx) Global DUPLEX) as [r | e] eqn:Er; cbn [bind] in H; [ | discriminate ].
  destruct (cartesian_array_response (arr tx) carrier (position rx) Global DUPLEX) as [t | e] eqn:Et; cbn [bind] in H; [ | discriminate ].
  destruct (amplitude _ tx rx carrier) as [a | e] eqn:Ea; cbn [bind] in H; [ | discriminate ]. injection H as <-.
  exists r, t, a. split; [ reflexivity | ]. split; [ reflexivity | ]. split; [ reflexivity | ]. split; [ reflexivity | ].
  cbn [mscale inner m_rows m_cols]. rewrite (array_response_length _ _ _ _ _ Er), (array_response_length _ _ _ _ _ Et).
  split; [ reflexivity | ]. split; [ reflexivity | ].
  unfold cartesian_array_response, characteristics in Er. intros Hq.
  replace (from_cartesian (vsub (position tx) (translation (base (arr rx)))) true) with (@Raise vec ValueError) in Er; [ discriminate | ].
  unfold from_cartesian. rewrite Hq. fold (position rx). rewrite norm_self. destruct (Req_EM_T 0 0); [ reflexivity | lra ].
Qed.
Lemma response_defined : forall p tx rx carrier, apart p tx rx -> carrier <> 0 -> exists h, propagation_response p tx rx carrier = Ok h.
Proof.
  intros [q v cs ph att st | att st] tx rx carrier H Hc; cbn [propagation_response apart] in *.
  - destruct H as [H1 H2]. rewrite (array_response (arr rx)) by (apply norm_apart; exact H2). cbn [bind].
    rewrite (array_response (arr tx)) by (apply norm_apart; exact H1). cbn [bind amplitude].
    destruct att; [ destruct (Req_EM_T carrier 0); [ contradiction | ] | ]; eexists; reflexivity.
  - rewrite (array_response (arr rx)) by (apply norm_apart; exact H). cbn [bind].
    rewrite (array_response (arr tx)) by (apply norm_apart; intros E; apply H; symmetry; exact E). cbn [bind amplitude].
    destruct att; [ destruct (Req_EM_T carrier 0); [ contradiction | ] | ]; eexists; reflexivity.
Qed.
Lemma select_duplex : forall l m, (forall a, In a l -> amode a = DUPLEX) -> select m l = l.
Proof.
  intros l m H. destruct m; cbn [select]; try reflexivity; apply filter_all; intros a Ha; rewrite (H a Ha); reflexivity.
Qed.
Lemma response_mode : forall d m m' carrier p, duplex d -> cartesian_array_response (arr d) carrier p Global m = cartesian_array_response (arr d) carrier p Global m'.
Proof.
  intros d m m' carrier p H. unfold cartesian_array_response, characteristics, cartesian_phase_response, topology. rewrite (select_duplex _ m H), (select_duplex _ m' H). reflexivity.
Qed.
Lemma inner_sym : forall a b i j, m_at (inner a b) i j = m_at (inner b a) j i.
Proof.
  intros a b i j. unfold inner. cbv zeta. cbn [m_at]. destruct (nth i a _) as [p [u v]]. destruct (nth j b _) as [q [w y]].
  rewrite (Cmult_comm p q). do 2 f_equal. ring.
Qed.
Lemma amplitude_sym : forall p tx rx carrier, amplitude p tx rx carrier = amplitude p rx tx carrier.
Proof.
  intros [q v cs ph att st | att st] tx rx carrier; cbn [amplitude]; destruct att; try reflexivity; destruct (Req_EM_T carrier 0); try reflexivity; do 2 f_equal.
  - rewrite (norm_vsub_sym q (position tx)), (norm_vsub_sym (position rx) q). ring.
  - rewrite (norm_vsub_sym (position rx)). reflexivity.
Qed.

(** ** Propagation *)
Definition speed (p : path) (tx rx : device) : R := match relative_velocity p tx rx with Ok v => v | Raise _ => 0 end.
Definition triple (tx rx : device) (p : path) : path * (R * R) := (p, (propagation_delay p tx rx, speed p tx rx)).
Lemma speed_ok : forall p tx rx v, relative_velocity p tx rx = Ok v -> speed p tx rx = v.
Proof. intros p tx rx v E. unfold speed. rewrite E. reflexivity. Qed.
Lemma velocities_map : forall ps tx rx vs, mapM (fun p => relative_velocity p tx rx) ps = Ok vs -> vs = map (fun p => speed p tx rx) ps.
Proof.
  induction ps as [ | p ps IH]; intros tx rx vs H; cbn [mapM] in H; [ injection H as <-; reflexivity | ].
  destruct (relative_velocity p tx rx) as [v | e] eqn:E; cbn [bind] in H; [ | discriminate ].
  destruct (mapM _ ps) as [ws | e] eqn:F; cbn [bind] in H; [ | discriminate ]. injection H as <-. cbn [map]. rewrite <- (IH _ _ _ F), (speed_ok _ _ _ _ E). reflexivity.
Qed.
Lemma velocities_defined : forall ps tx rx, (forall p, In p ps -> apart p tx rx) -> mapM (fun p => relative_velocity p tx rx) ps = Ok (map (fun p => speed p tx rx) ps).
Proof.
  induction ps as [ | p ps IH]; intros tx rx H; [ reflexivity | ]. cbn [mapM map].
  destruct (velocity_defined p tx rx (H p (or_introl eq_refl))) as [v E]. rewrite (speed_ok _ _ _ _ E), E. cbn [bind].
  rewrite IH by (intros q Hq; apply H; right; exact Hq). reflexivity.
Qed.
Lemma combine_triples : forall ps tx rx, combine ps (combine (map (fun p => propagation_delay p tx rx) ps) (map (fun p => speed p tx rx) ps)) = map (triple tx rx) ps.
Proof. induction ps as [ | p ps IH]; intros; [ reflexivity | ]. cbn [map combine]. rewrite IH. reflexivity. Qed.
Lemma fold_max : forall l a, (fold_left Rmax l a = a \/ In (fold_left Rmax l a) l) /\ a <= fold_left Rmax l a /\ (forall v, In v l -> v <= fold_left Rmax l a).
Proof.
  induction l as [ | b l IH]; intros a; cbn [fold_left].
  - split; [ left; reflexivity | ]. split; [ lra | ]. intros v [].
  - destruct (IH (Rmax a b)) as (H1 & H2 & H3). assert (La := Rmax_l a b). assert (Lb := Rmax_r a b). split; [ | split ].
    + destruct H1 as [H1 | H1]; [ | right; right; exact H1 ]. rewrite H1. unfold Rmax. destruct (Rle_dec a b); [ right; left; reflexivity | left; reflexivity ].
    + lra.
    + intros v [<- | Hv]; [ lra | apply H3; exact Hv ].
Qed.
Lemma maximum_spec : forall l, l <> [] -> In (maximum l) l /\ forall v, In v l -> v <= maximum l.
Proof.
  intros [ | a l] H; [ contradiction | ]. cbn [maximum]. destruct (fold_max l a) as (H1 & H2 & H3). split.
  - destruct H1 as [H1 | H1]; [ left; symmetry; exact H1 | right; exact H1 ].
  - intros v [<- | Hv]; [ exact H2 | apply H3; exact Hv ].
Qed.
Lemma maximum_perm : forall l l', Permutation l l' -> maximum l = maximum l'.
Proof.
  intros l l' H. destruct l as [ | a l]; [ apply Permutation_nil in H; rewrite H; reflexivity | ].
  assert (Hn : l' <> []). { intros ->. apply Permutation_sym, Permutation_nil in H. discriminate. }
  destruct (maximum_spec (a :: l) ltac:(discriminate)) as [H1 H2]. destruct (maximum_spec l' Hn) as [H3 H4].
  apply Rle_antisym; [ apply H4, (Permutation_in _ H); exact H1 | apply H2, (Permutation_in _ (Permutation_sym H)); exact H3 ].
Qed.
Lemma whole_mono : forall a b, a <= b -> (whole a <= whole b)%nat.
Proof.
  intros a b H. unfold whole. assert (Ha := floor_spec a). assert (Hb := floor_spec b).
  assert (E : (Int_part a <= Int_part b)%Z). { assert (L : (Int_part a < Int_part b + 1)%Z) by (apply lt_IZR; rewrite plus_IZR; lra). lia. }
  lia.
Qed.
(** Every echo fits if velocities do not shorten the output by a sample *)
Lemma overhead_enough : forall ps tx rx bandwidth n p, 0 < bandwidth -> In p ps ->
  (exists q, In q ps /\ -1 < 2 * speed q tx rx * INR n / (bandwidth * speed_of_light)) ->
  (0 <= Z.of_nat n + overhead (map (fun p => propagation_delay p tx rx) ps) (map (fun p => speed p tx rx) ps) bandwidth n)%Z /\
  (whole (propagation_delay p tx rx * bandwidth) + n <= Z.to_nat (Z.of_nat n + overhead (map (fun p => propagation_delay p tx rx) ps) (map (fun p => speed p tx rx) ps) bandwidth n))%nat.
Proof.
  intros ps tx rx B n p HB Hp [q [Hq Hv]]. assert (Hn : ps <> []) by (intros ->; contradiction).
  unfold overhead. destruct (map (fun p => propagation_delay p tx rx) ps) as [ | d ds] eqn:Ed; [ apply map_eq_nil in Ed; contradiction | ]. rewrite <- Ed.
  destruct (maximum_spec (map (fun p => propagation_delay p tx rx) ps)) as [H1 H2]; [ rewrite Ed; discriminate | ].
  destruct (maximum_spec (map (fun p => speed p tx rx) ps)) as [H3 H4]; [ intros E; apply map_eq_nil in E; contradiction | ].
  set (D := maximum (map (fun p => propagation_delay p tx rx) ps)) in *. set (W := maximum (map (fun p => speed p tx rx) ps)) in *.
  assert (Hd : propagation_delay p tx rx <= D) by (apply H2; apply (in_map (fun p => propagation_delay p tx rx)); exact Hp).
  assert (Hw : speed q tx rx <= W) by (apply H4; apply (in_map (fun p => speed p tx rx)); exact Hq).
  assert (Hc : 0 < / (B * speed_of_light)) by (apply Rinv_0_lt_compat; apply Rmult_lt_0_compat; [ exact HB | exact light_pos ]).
  set (e := 2 * W * INR n / (B * speed_of_light)).
  assert (He : -1 < e).
  { unfold e, Rdiv in *. assert (Hi := pos_INR n). assert (2 * speed q tx rx * INR n * / (B * speed_of_light) <= 2 * W * INR n * / (B * speed_of_light)); [ | lra ].
    apply Rmult_le_compat_r; [ lra | ]. apply Rmult_le_compat_r; [ lra | lra ]. }
  assert (H0 := delay_nonneg p tx rx). assert (F := floor_spec (- (D * B + e))). assert (G := floor_spec (propagation_delay p tx rx * B)).
  assert (Hm : propagation_delay p tx rx * B <= D * B) by (apply Rmult_le_compat_r; lra).
  unfold whole. set (o := Int_part (propagation_delay p tx rx * B)) in *. set (c := Int_part (- (D * B + e))) in *.
  assert (Ho : (0 <= o)%Z). { assert (-1 < IZR o) by (assert (0 <= propagation_delay p tx rx * B) by (apply Rmult_le_pos; lra); lra). assert ((-1 < o)%Z) by (apply lt_IZR; lra). lia. }
  assert (Hoc : (o <= - c)%Z). { assert (Hx : IZR o - 1 < - IZR c) by lra. assert (Hy : (o - 1 < - c)%Z) by (apply lt_IZR; rewrite minus_IZR, opp_IZR; lra). lia. }
  split; lia.
Qed.

Lemma only_lt : forall n r, (r < n)%nat -> only n r = r.
Proof. intros n r H. unfold only. destruct (Nat.eqb_spec n 1); [ lia | reflexivity ]. Qed.
Lemma response_shape : forall p tx rx carrier h, propagation_response p tx rx carrier = Ok h -> (interferes p -> duplex tx /\ duplex rx) ->
  m_rows h = num_receive rx /\ m_cols h = num_transmit tx.
Proof.
  intros [q v cs ph att st | att st] tx rx carrier h H Hd.
  - destruct (target_response _ _ _ _ _ _ _ _ _ _ H) as (r & t & a & _ & _ & _ & _ & H1 & H2 & _). split; assumption.
  - destruct (interference_response _ _ _ _ _ _ H) as (r & t & a & _ & _ & _ & _ & H1 & H2 & _). destruct (Hd I) as [D1 D2].
    unfold num_receive, num_transmit. rewrite (select_duplex _ RX D2), (select_duplex _ TX D1). split; assumption.
Qed.
Lemma add_echo : forall p tx rx s B carrier time total v acc, apart p tx rx -> carrier <> 0 -> (interferes p -> duplex tx /\ duplex rx) ->
  streams s = num_transmit tx -> (whole (propagation_delay p tx rx * B) + samples s <= total)%nat -> v = speed p tx rx ->
  exists y, add_propagation p tx rx s B carrier time total (propagation_delay p tx rx) v acc = Ok y /\
  forall r k, (r < num_receive rx)%nat -> y r k = (acc r k + echo p tx rx B carrier time s r k)%C.
Proof.
  intros p tx rx s B carrier time tot v acc Hap Hc Hd Hs Hf Hv. destruct (response_defined p tx rx carrier Hap Hc) as [h Eh].
  destruct (velocity_defined p tx rx Hap) as [v' Ev]. assert (v = v') by (rewrite Hv; unfold speed; rewrite Ev; reflexivity). subst v'. clear Hv.
  destruct (response_shape _ _ _ _ _ Eh Hd) as [Hr Hcol]. unfold add_propagation, echo. rewrite Eh, Ev. cbn [bind].
  set (o := whole (propagation_delay p tx rx * B)) in *.
  replace (Nat.min (o + samples s) tot - Nat.min o tot)%nat with (samples s) by lia.
  unfold compatible. rewrite Hcol, Hs, Hr, !Nat.eqb_refl. cbn [negb orb]. eexists. split; [ reflexivity | ].
  intros r k Hk. cbv beta. destruct (Nat.leb o k && Nat.ltb k (o + samples s))%bool; [ | symmetry; apply Cplus_0_r ].
  f_equal. replace (if Nat.eqb (num_transmit tx) 1 then num_transmit tx else num_transmit tx) with (num_transmit tx) by (destruct (Nat.eqb _ 1); reflexivity).
  rewrite <- csum_scal_r. apply csum_ext. intros j Hj. rewrite (only_lt _ _ Hk), (only_lt _ _ Hj). unfold echo_weight, doppler_shift. replace (2 * PI * (v * carrier / speed_of_light * (time + INR (k - o) / B))) with (2 * PI * (v * carrier / speed_of_light) * (time + INR (k - o) / B)) by ring. reflexivity.
Qed.
Definition step (tx rx : device) (s : blk) (B carrier time : R) (total : nat) (acc : result (nat -> nat -> C)) (q : path * (R * R)) : result (nat -> nat -> C) :=
  do a <- acc; add_propagation (fst q) tx rx s B carrier time total (fst (snd q)) (snd (snd q)) a.
Lemma fold_echoes : forall tx rx s B carrier time tot ps acc, carrier <> 0 -> streams s = num_transmit tx ->
  (forall p, In p ps -> apart p tx rx /\ (interferes p -> duplex tx /\ duplex rx) /\ (whole (propagation_delay p tx rx * B) + samples s <= tot)%nat) ->
  exists y, fold_left (step tx rx s B carrier time tot) (map (triple tx rx) ps) (Ok acc) = Ok y /\
  forall r k, (r < num_receive rx)%nat -> y r k = (acc r k + total_echo ps tx rx B carrier time s r k)%C.
Proof.
  intros tx rx s B carrier time tot ps. induction ps as [ | p ps IH]; intros acc Hc Hs H.
  - exists acc. split; [ reflexivity | ]. intros r k _. unfold total_echo. cbn [total]. ring.
  - destruct (H p (or_introl eq_refl)) as (Ha & Hi & Hf).
    destruct (add_echo p tx rx s B carrier time tot _ acc Ha Hc Hi Hs Hf eq_refl) as [a [Ea Xa]].
    destruct (IH a Hc Hs (fun q Hq => H q (or_intror Hq))) as [y [Ey Xy]]. exists y. split.
    + cbn [map fold_left]. unfold step at 2. cbn [triple fst snd bind]. rewrite Ea. exact Ey.
    + intros r k Hr. rewrite Xy, Xa by exact Hr. unfold total_echo. cbn [total]. ring.
Qed.
Lemma propagate_eq : forall ps gain tx rx B carrier time s, mapM (fun p => relative_velocity p tx rx) ps = Ok (map (fun p => speed p tx rx) ps) ->
  propagate ps gain tx rx B carrier time s =
  let tot := (Z.of_nat (samples s) + overhead (map (fun p => propagation_delay p tx rx) ps) (map (fun p => speed p tx rx) ps) B (samples s))%Z in
  if (tot <? 0)%Z then Raise ValueError
  else do y <- fold_left (step tx rx s B carrier time (Z.to_nat tot)) (map (triple tx rx) ps) (Ok (fun _ _ => RtoC 0));
       Ok (Blk (num_receive rx) (Z.to_nat tot) (offset s) (fun r k => (y r k * RtoC (sqrt gain))%C)).
Proof. intros. unfold propagate. rewrite H. cbn [bind]. rewrite combine_triples. reflexivity. Qed.
Lemma propagate_velocities : forall ps gain tx rx B carrier time s y, propagate ps gain tx rx B carrier time s = Ok y ->
  mapM (fun p => relative_velocity p tx rx) ps = Ok (map (fun p => speed p tx rx) ps).
Proof.
  intros ps gain tx rx B carrier time s y H. unfold propagate in H. destruct (mapM _ ps) as [vs | e] eqn:E; cbn [bind] in H; [ | discriminate ].
  rewrite (velocities_map _ _ _ _ E). reflexivity.
Qed.
Lemma propagate_echoes : forall ps gain tx rx B carrier time s, 0 < B -> carrier <> 0 -> streams s = num_transmit tx ->
  (forall p, In p ps -> apart p tx rx /\ (interferes p -> duplex tx /\ duplex rx)) ->
  (ps <> [] -> exists q, In q ps /\ -1 < 2 * speed q tx rx * INR (samples s) / (B * speed_of_light)) ->
  exists y, propagate ps gain tx rx B carrier time s = Ok y /\ streams y = num_receive rx /\ (samples s <= samples y)%nat /\
  (forall p, In p ps -> (whole (propagation_delay p tx rx * B) + samples s <= samples y)%nat) /\
  forall r k, (r < num_receive rx)%nat -> x y r k = (RtoC (sqrt gain) * total_echo ps tx rx B carrier time s r k)%C.
Proof.
  intros ps gain tx rx B carrier time s HB Hc Hs Hp Hq. rewrite propagate_eq by (apply velocities_defined; intros p Hin; exact (proj1 (Hp p Hin))).
  cbv zeta. set (tot := (Z.of_nat (samples s) + _)%Z).
  assert (Ht : (0 <= tot)%Z /\ (samples s <= Z.to_nat tot)%nat /\ forall p, In p ps -> (whole (propagation_delay p tx rx * B) + samples s <= Z.to_nat tot)%nat).
  { destruct ps as [ | p0 ps'].
    - unfold tot. cbn [map overhead]. split; [ lia | ]. split; [ lia | ]. intros p [].
    - assert (Hn : p0 :: ps' <> []) by discriminate. specialize (Hq Hn).
      destruct (overhead_enough (p0 :: ps') tx rx B (samples s) p0 HB (or_introl eq_refl) Hq) as [H0 H1]. fold tot in H0, H1. split; [ exact H0 | ]. split; [ lia | ].
      intros p Hin. exact (proj2 (overhead_enough _ tx rx B (samples s) p HB Hin Hq)). }
  destruct Ht as (H0 & H1 & H2). destruct (Z.ltb_spec tot 0) as [Hz | _]; [ lia | ].
  destruct (fold_echoes tx rx s B carrier time (Z.to_nat tot) ps (fun _ _ => RtoC 0) Hc Hs) as [y [Ey Xy]].
  { intros p Hin. destruct (Hp p Hin). split; [ assumption | ]. split; [ assumption | ]. apply H2. exact Hin. }
  rewrite Ey. cbn [bind]. eexists. split; [ reflexivity | ]. cbn [streams samples x]. split; [ reflexivity | ]. split; [ exact H1 | ]. split; [ exact H2 | ].
  intros r k Hr. rewrite Xy by exact Hr. ring.
Qed.

(** Whether a block is propagated depends on its shape alone, and the output on its samples linearly *)
Lemma step_linear : forall p tx rx B carrier time tot d v a b s t y1 y2 acc1 acc2 acc, streams t = streams s -> samples t = samples s ->
  add_propagation p tx rx s B carrier time tot d v acc1 = Ok y1 -> add_propagation p tx rx t B carrier time tot d v acc2 = Ok y2 ->
  (forall r k, acc r k = a * acc1 r k + b * acc2 r k)%C ->
  exists y, add_propagation p tx rx (combined a b s t) B carrier time tot d v acc = Ok y /\ forall r k, (y r k = a * y1 r k + b * y2 r k)%C.
Proof.
  intros p tx rx B carrier time tot d v a b s t y1 y2 acc1 acc2 acc Hst Hsa H1 H2 Ha. unfold add_propagation in *.
  destruct (propagation_response p tx rx carrier) as [h | e]; cbn [bind] in *; [ | discriminate ].
  cbn [combined streams samples x]. rewrite Hst, Hsa in H2.
  destruct (negb (compatible (m_cols h) (streams s) || Nat.eqb (streams s) 1)); [ discriminate | ].
  destruct (negb (compatible (m_rows h) (num_receive rx))); [ discriminate | ].
  destruct (negb _) in *; [ discriminate | ]. injection H1 as <-. injection H2 as <-. eexists. split; [ reflexivity | ].
  intros r k. cbv beta. destruct (_ && _)%bool; [ | apply Ha ]. rewrite Ha.
  set (n := if Nat.eqb (m_cols h) 1 then streams s else m_cols h).
  set (f := fun j => (m_at h (only (m_rows h) r) (only (m_cols h) j) * x s (only (streams s) j) (k - whole (d * B))%nat * echo_weight (doppler_shift v carrier) time B (k - whole (d * B)))%C).
  set (g := fun j => (m_at h (only (m_rows h) r) (only (m_cols h) j) * x t (only (streams s) j) (k - whole (d * B))%nat * echo_weight (doppler_shift v carrier) time B (k - whole (d * B)))%C).
  rewrite (csum_ext _ (fun j => a * f j + b * g j)%C) by (intros j _; unfold f, g; ring). rewrite csum_plus, !csum_scal. ring.
Qed.
Lemma fold_raise : forall tx rx s B carrier time tot l e, fold_left (step tx rx s B carrier time tot) l (Raise e) = Raise e.
Proof. intros. induction l as [ | q l IH]; [ reflexivity | ]. cbn [fold_left]. exact IH. Qed.
Lemma fold_linear : forall tx rx B carrier time tot a b s t l acc1 acc2 acc y1 y2, streams t = streams s -> samples t = samples s ->
  fold_left (step tx rx s B carrier time tot) l (Ok acc1) = Ok y1 -> fold_left (step tx rx t B carrier time tot) l (Ok acc2) = Ok y2 ->
  (forall r k, acc r k = a * acc1 r k + b * acc2 r k)%C ->
  exists y, fold_left (step tx rx (combined a b s t) B carrier time tot) l (Ok acc) = Ok y /\ forall r k, (y r k = a * y1 r k + b * y2 r k)%C.
Proof.
  intros tx rx B carrier time tot a b s t l. induction l as [ | q l IH]; intros acc1 acc2 acc y1 y2 Hst Hsa H1 H2 Ha; cbn [fold_left] in *.
  - injection H1 as <-. injection H2 as <-. exists acc. split; [ reflexivity | exact Ha ].
  - unfold step at 2 in H1. unfold step at 2 in H2. unfold step at 2. cbn [bind] in *.
    destruct (add_propagation _ tx rx s B carrier time tot _ _ acc1) as [z1 | e] eqn:E1; [ | rewrite fold_raise in H1; discriminate ].
    destruct (add_propagation _ tx rx t B carrier time tot _ _ acc2) as [z2 | e] eqn:E2; [ | rewrite fold_raise in H2; discriminate ].
    destruct (step_linear _ _ _ _ _ _ _ _ _ a b s t z1 z2 acc1 acc2 acc Hst Hsa E1 E2 Ha) as [z [Ez Xz]]. rewrite Ez. exact (IH z1 z2 z y1 y2 Hst Hsa H1 H2 Xz).
Qed.

(** The order of paths *)
Lemma step_equal : forall p tx rx s B carrier time tot d v acc acc' y, (forall r k, acc r k = acc' r k) ->
  add_propagation p tx rx s B carrier time tot d v acc = Ok y ->
  exists y', add_propagation p tx rx s B carrier time tot d v acc' = Ok y' /\ forall r k, y r k = y' r k.
Proof.
  intros p tx rx s B carrier time tot d v acc acc' y Ha H. unfold add_propagation in *.
  destruct (propagation_response p tx rx carrier) as [h | e]; cbn [bind] in *; [ | discriminate ].
  destruct (negb _); [ discriminate | ]. destruct (negb _); [ discriminate | ]. destruct (negb _); [ discriminate | ].
  injection H as <-. eexists. split; [ reflexivity | ]. intros r k. cbv beta. rewrite (Ha r k). reflexivity.
Qed.
Lemma fold_equal : forall tx rx s B carrier time tot l acc acc' y, (forall r k, acc r k = acc' r k) ->
  fold_left (step tx rx s B carrier time tot) l (Ok acc) = Ok y ->
  exists y', fold_left (step tx rx s B carrier time tot) l (Ok acc') = Ok y' /\ forall r k, y r k = y' r k.
Proof.
  intros tx rx s B carrier time tot l. induction l as [ | q l IH]; intros acc acc' y Ha H; cbn [fold_left] in *.
  - injection H as <-. exists acc'. split; [ reflexivity | exact Ha ].
  - unfold step at 2 in H. unfold step at 2. cbn [bind] in *.
    destruct (add_propagation _ _ _ _ _ _ _ _ _ _ acc) as [z | e] eqn:E; [ | rewrite fold_raise in H; discriminate ].
    destruct (step_equal _ _ _ _ _ _ _ _ _ _ _ _ _ Ha E) as [z' [Ez Xz]]. rewrite Ez. exact (IH _ _ _ Xz H).
Qed.
Lemma step_swap : forall p q tx rx s B carrier time tot d v e w acc y,
  (do a <- add_propagation p tx rx s B carrier time tot d v acc; add_propagation q tx rx s B carrier time tot e w a) = Ok y ->
  exists y', (do a <- add_propagation q tx rx s B carrier time tot e w acc; add_propagation p tx rx s B carrier time tot d v a) = Ok y' /\ forall r k, y r k = y' r k.
Proof.
  intros p q tx rx s B carrier time tot d v e w acc y H. unfold add_propagation in *.
  destruct (propagation_response p tx rx carrier) as [h | ?]; cbn [bind] in *; [ | discriminate ].
  destruct (propagation_response q tx rx carrier) as [h' | ?]; cbn [bind] in *.
  2: { destruct (negb _); [ discriminate | ]. destruct (negb _); [ discriminate | ]. destruct (negb _); discriminate. }
  set (p1 := negb (compatible (m_cols h) _ || _)) in *. set (p2 := negb (compatible (m_rows h) _)) in *. set (p3 := negb (_ || Nat.eqb (samples s) 1)) in *.
  destruct p1; [ discriminate | ]. destruct p2; [ discriminate | ]. destruct p3; [ discriminate | ]. cbn [bind] in *.
  destruct (negb _); [ discriminate | ]. destruct (negb _); [ discriminate | ]. destruct (negb _); [ discriminate | ].
  injection H as <-. cbn [bind]. eexists. split; [ reflexivity | ]. intros r k. cbv beta.
  set (f := csum _ _). set (g := csum _ _).
  destruct (_ && _)%bool; destruct (_ && _)%bool; try reflexivity; ring.
Qed.
Lemma fold_perm : forall tx rx s B carrier time tot l l', Permutation l l' -> forall acc y,
  fold_left (step tx rx s B carrier time tot) l (Ok acc) = Ok y ->
  exists y', fold_left (step tx rx s B carrier time tot) l' (Ok acc) = Ok y' /\ forall r k, y r k = y' r k.
Proof.
  intros tx rx s B carrier time tot l l' P. induction P as [ | q l l' P IH | q q' l | l l' l'' P1 IH1 P2 IH2]; intros acc y H.
  - exists y. split; [ exact H | reflexivity ].
  - cbn [fold_left] in *. unfold step at 2 in H. unfold step at 2. cbn [bind] in *.
    destruct (add_propagation _ _ _ _ _ _ _ _ _ _ acc) as [z | e]; [ | rewrite fold_raise in H; discriminate ]. exact (IH _ _ H).
  - cbn [fold_left] in *.
    assert (E : forall u w, step tx rx s B carrier time tot (step tx rx s B carrier time tot (Ok acc) u) w =
      do a <- add_propagation (fst u) tx rx s B carrier time tot (fst (snd u)) (snd (snd u)) acc; add_propagation (fst w) tx rx s B carrier time tot (fst (snd w)) (snd (snd w)) a) by reflexivity.
    rewrite E in *. destruct (do a <- add_propagation (fst q') _ _ _ _ _ _ _ _ _ acc; _) as [z | e] eqn:Ez; [ | rewrite fold_raise in H; discriminate ].
    destruct (step_swap _ _ _ _ _ _ _ _ _ _ _ _ _ _ _ Ez) as [z' [Ez' Xz]]. rewrite Ez'. exact (fold_equal _ _ _ _ _ _ _ _ _ _ _ Xz H).
  - destruct (IH1 _ _ H) as [z [Ez Xz]]. destruct (IH2 _ _ Ez) as [w [Ew Xw]]. exists w. split; [ exact Ew | ]. intros r k. rewrite Xz. apply Xw.
Qed.
Lemma mapM_perm : forall (ps qs : list path) tx rx, Permutation ps qs -> mapM (fun p => relative_velocity p tx rx) ps = Ok (map (fun p => speed p tx rx) ps) ->
  mapM (fun p => relative_velocity p tx rx) qs = Ok (map (fun p => speed p tx rx) qs).
Proof.
  intros ps qs tx rx P H. assert (K : forall p, In p ps -> relative_velocity p tx rx = Ok (speed p tx rx)).
  { clear P. revert H. induction ps as [ | p ps IH]; intros H q Hq; [ destruct Hq | ]. cbn [mapM map] in H.
    destruct (relative_velocity p tx rx) as [v | e] eqn:E; cbn [bind] in H; [ | discriminate ].
    destruct (mapM _ ps) as [ws | e] eqn:F; cbn [bind] in H; [ | discriminate ]. injection H as Ev Ew.
    destruct Hq as [<- | Hq]; [ rewrite E, Ev; reflexivity | apply IH; [ rewrite Ew; reflexivity | exact Hq ] ]. }
  assert (K' : forall p, In p qs -> relative_velocity p tx rx = Ok (speed p tx rx)) by (intros p Hp; apply K; apply (Permutation_in _ (Permutation_sym P)); exact Hp).
  clear - K'. induction qs as [ | q qs IH]; [ reflexivity | ]. cbn [mapM map]. rewrite (K' q (or_introl eq_refl)). cbn [bind].
  rewrite IH by (intros p Hp; apply K'; right; exact Hp). reflexivity.
Qed.
Lemma overhead_perm : forall ds ds' vs vs' B n, Permutation ds ds' -> Permutation vs vs' -> overhead ds vs B n = overhead ds' vs' B n.
Proof.
  intros ds ds' vs vs' B n P Q. unfold overhead. destruct ds as [ | d ds].
  - apply Permutation_nil in P. rewrite P. reflexivity.
  - destruct ds' as [ | d' ds']; [ apply Permutation_sym, Permutation_nil in P; discriminate | ].
    rewrite (maximum_perm _ _ P), (maximum_perm _ _ Q). reflexivity.
Qed.

(** States *)
Definition sstep (tx rx : device) (B carrier time : R) (taps : nat) (acc : result (nat -> nat -> nat -> nat -> C)) (p : path) :=
  do a <- acc; add_state p tx rx B carrier time taps a.
(** What a path adds to the channel impulse response *)
Definition tap (p : path) (tx rx : device) (B carrier time : R) (r t i k : nat) : C :=
  match propagation_response p tx rx carrier, relative_velocity p tx rx with
  | Ok h, Ok v => if Nat.eqb k (whole (propagation_delay p tx rx * B)) then (m_at h r t * cis (2 * PI * (v * carrier / speed_of_light) * (time + INR i / B)))%C else RtoC 0
  | _, _ => RtoC 0
  end.
Lemma fold_taps : forall tx rx B carrier time taps ps acc, carrier <> 0 -> (forall p, In p ps -> apart p tx rx /\ (interferes p -> duplex tx /\ duplex rx)) ->
  exists raw, fold_left (sstep tx rx B carrier time taps) ps (Ok acc) = Ok raw /\
  forall r t i k, (r < num_receive rx)%nat -> (t < num_transmit tx)%nat -> (k < taps)%nat -> raw r t i k = (acc r t i k + total (fun p => tap p tx rx B carrier time r t i k) ps)%C.
Proof.
  intros tx rx B carrier time taps ps. induction ps as [ | p ps IH]; intros acc Hc H.
  - exists acc. split; [ reflexivity | ]. intros. cbn [total]. ring.
  - destruct (H p (or_introl eq_refl)) as (Ha & Hi). destruct (response_defined p tx rx carrier Ha Hc) as [h Eh]. destruct (velocity_defined p tx rx Ha) as [v Ev].
    destruct (response_shape _ _ _ _ _ Eh Hi) as [Hr Hcol].
    assert (K : exists a, add_state p tx rx B carrier time taps acc = Ok a /\
      forall r t i k, (r < num_receive rx)%nat -> (t < num_transmit tx)%nat -> (k < taps)%nat -> a r t i k = (acc r t i k + tap p tx rx B carrier time r t i k)%C).
    { unfold add_state, tap. rewrite Ev, Eh. cbn [bind]. set (o := whole (propagation_delay p tx rx * B)). destruct (Nat.leb_spec taps o) as [Ho | Ho].
      - exists acc. split; [ reflexivity | ]. intros r t i k _ _ Hk. destruct (Nat.eqb_spec k o); [ lia | ]. ring.
      - unfold compatible. rewrite Hr, Hcol, !Nat.eqb_refl. cbn [orb andb negb]. eexists. split; [ reflexivity | ]. intros r t i k H1 H2 _. cbv beta.
        destruct (Nat.eqb k o); [ | ring ]. rewrite (only_lt _ _ H1), (only_lt _ _ H2). unfold echo_weight, doppler_shift.
        replace (2 * PI * (v * carrier / speed_of_light * (time + INR i / B))) with (2 * PI * (v * carrier / speed_of_light) * (time + INR i / B)) by ring. reflexivity. }
    destruct K as [a [Ea Xa]]. destruct (IH a Hc (fun q Hq => H q (or_intror Hq))) as [raw [Er Xr]]. exists raw. split.
    + cbn [fold_left]. unfold sstep at 2. cbn [bind]. rewrite Ea. exact Er.
    + intros r t i k H1 H2 H3. rewrite Xr, Xa by assumption. cbn [total]. ring.
Qed.
Lemma total_filter : forall {T} (f : T -> C) b l, total f (filter b l) = total (fun a => if b a then f a else RtoC 0) l.
Proof. intros T f b l. induction l as [ | a l IH]; [ reflexivity | ]. cbn [filter total]. destruct (b a); cbn [total]; rewrite IH; [ reflexivity | ring ]. Qed.
Lemma total_swap : forall {S T} (f : S -> T -> C) l m, total (fun a => total (f a) m) l = total (fun b => total (fun a => f a b) l) m.
Proof.
  intros S T f l m. induction l as [ | a l IH]; cbn [total]; [ symmetry; apply total_0 | ]. rewrite IH, <- total_plus. reflexivity.
Qed.
Lemma taps_echo : forall p tx rx B carrier time s r j taps,
  total (fun d => csum (fun t => if (Nat.leb d j && Nat.ltb j (d + samples s))%bool then (tap p tx rx B carrier time r t (j - d) d * x s t (j - d)%nat)%C else RtoC 0) (streams s)) (seq 0 taps)
  = if Nat.ltb (whole (propagation_delay p tx rx * B)) taps then echo p tx rx B carrier time s r j else RtoC 0.
Proof.
  intros p tx rx B carrier time s r j taps. unfold tap, echo. destruct (propagation_response p tx rx carrier) as [h | e].
  2: { rewrite (total_ext _ (fun _ => RtoC 0)); [ rewrite total_0; destruct (Nat.ltb _ _); reflexivity | ]. intros d _. rewrite (csum_ext _ (fun _ => RtoC 0)); [ apply csum_0 | ]. intros t _. destruct (_ && _)%bool; ring. }
  destruct (relative_velocity p tx rx) as [v | e].
  2: { rewrite (total_ext _ (fun _ => RtoC 0)); [ rewrite total_0; destruct (Nat.ltb _ _); reflexivity | ]. intros d _. rewrite (csum_ext _ (fun _ => RtoC 0)); [ apply csum_0 | ]. intros t _. destruct (_ && _)%bool; ring. }
  set (o := whole (propagation_delay p tx rx * B)). set (w := fun d => cis (2 * PI * (v * carrier / speed_of_light) * (time + INR (j - d) / B))).
  rewrite (total_ext _ (fun d => if Nat.eqb d o then (if (Nat.leb d j && Nat.ltb j (d + samples s))%bool then csum (fun t => m_at h r t * x s t (j - d)%nat) (streams s) * w d else RtoC 0)%C else RtoC 0)).
  - rewrite (total_delta (fun d => if (Nat.leb d j && Nat.ltb j (d + samples s))%bool then csum (fun t => m_at h r t * x s t (j - d)%nat) (streams s) * w d else RtoC 0)%C). reflexivity.
  - intros d _. destruct (Nat.eqb d o).
    + destruct (_ && _)%bool; [ | apply csum_0 ]. rewrite <- csum_scal_r. apply csum_ext. intros t _. unfold w. ring.
    + rewrite (csum_ext _ (fun _ => RtoC 0)); [ apply csum_0 | ]. intros t _. destruct (_ && _)%bool; ring.
Qed.
