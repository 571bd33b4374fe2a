(** C96: radar targets. *)
From Coq Require Import List Reals ZArith Lia Lra Bool Arith.
From Verif Require Import Base BaseLemmas Rot_Model Rot_Spec Rot_Proofs Ant_Model Rch_Model Rch_Spec Rch_Proofs Tgt_Model Tgt_Spec Tgt_Proofs.
Import ListNotations.
Open Scope R_scope.

(** Which configurations are accepted *)
Theorem C96_accepted_configurations : forall rg cs az ze ex s dec att, az <> Other -> ze <> Other -> s <> Other ->
  ((exists c, create_single rg cs az ze ex (Speed s) dec att = Ok c) <->
   well_formed_range rg /\ 0 <= cs /\ well_formed az /\ well_formed ze /\ well_formed s /\ 0 <= dec) /\
  (forall e, create_single rg cs az ze ex (Speed s) dec att = Raise e -> e = ValueError).
Proof.
  intros rg cs az ze ex s dec att Ha Hz Hs. split; [ split | ].
  - intros [c H]. destruct (created _ _ _ _ _ _ _ _ _ H) as (_ & H1 & H2 & H3 & H4 & H5 & H6).
    split; [ exact H1 | ]. split; [ exact H2 | ]. split; [ exact (H3 Ha) | ]. split; [ exact (H4 Hz) | ]. split; [ exact (H5 s eq_refl Hs) | exact H6 ].
  - intros (H1 & H2 & H3 & H4 & H5 & H6). unfold create_single, check_speed, check_nonnegative.
    apply check_range_spec in H1 as [r ->]. apply (check_span_spec az Ha) in H3 as [a ->]. apply (check_span_spec ze Hz) in H4 as [z ->]. apply (check_span_spec s Hs) in H5 as [v ->]. cbn [bind].
    destruct (Rlt_dec cs 0); [ lra | ]. destruct (Rlt_dec dec 0); [ lra | ]. cbn [bind]. eexists. reflexivity.
  - assert (K1 : forall a e, check_span a = Raise e -> e = ValueError).
    { intros [v | l | ] e; cbn [check_span]; try discriminate. destruct l as [ | lo [ | hi [ | q l]]]; try congruence. destruct (Rlt_dec hi lo); congruence. }
    assert (K2 : forall e, check_range rg = Raise e -> e = ValueError).
    { intros e. destruct rg as [v | l | ]; cbn [check_range]; try congruence.
      - destruct (Rlt_dec v 0); congruence.
      - destruct l as [ | lo [ | hi [ | q l]]]; try congruence. destruct (Rlt_dec hi lo); [ congruence | ]. destruct (Rlt_dec lo 0); congruence. }
    intros e. unfold create_single, check_speed, check_nonnegative.
    destruct (check_range rg) as [r | e1] eqn:E1; cbn [bind]; [ | intros H; injection H as <-; apply K2; reflexivity ].
    destruct (Rlt_dec cs 0); cbn [bind]; [ congruence | ].
    destruct (check_span az) as [a | e2] eqn:E2; cbn [bind]; [ | intros H; injection H as <-; exact (K1 _ _ E2) ].
    destruct (check_span ze) as [z | e3] eqn:E3; cbn [bind]; [ | intros H; injection H as <-; exact (K1 _ _ E3) ].
    destruct (check_span s) as [v | e4] eqn:E4; cbn [bind]; [ | intros H; injection H as <-; exact (K1 _ _ E4) ].
    destruct (Rlt_dec dec 0); cbn [bind]; congruence.
Qed.
Print Assumptions C96_accepted_configurations.
(** The target is where it was configured to be, seen from the origin of the scene, and moves away from there *)
Theorem C96_single_target : forall rg cs az ze s dec att c d, az <> Other -> ze <> Other -> s <> Other ->
  create_single rg cs az ze true (Speed s) dec att = Ok c -> unit_draws d ->
  exists r a z w phase, single_paths c d = [TargetPath (vscale r (From_Spherical a z)) (vscale w (From_Spherical a z)) cs phase att false] /\
  within rg r /\ within az a /\ within ze z /\ within s w /\ 0 <= phase <= 2 * PI /\ distance (vscale r (From_Spherical a z)) zero = r.
Proof.
  intros rg cs az ze s dec att c d Ha Hz Hs H (U1 & U2 & U3 & U4 & U5).
  destruct (created _ _ _ _ _ _ _ _ _ H) as (-> & H1 & H2 & H3 & H4 & H5 & H6).
  exists (drawn rg (u_range d)), (drawn az (u_azimuth d)), (drawn ze (u_zenith d)), (drawn s (u_velocity d)), (2 * PI * u_phase d).
  split; [ reflexivity | ]. split; [ apply drawn_within; [ apply range_well_formed; exact H1 | exact U1 ] | ].
  split; [ apply drawn_within; [ exact (H3 Ha) | exact U2 ] | ]. split; [ apply drawn_within; [ exact (H4 Hz) | exact U3 ] | ].
  split; [ apply drawn_within; [ exact (H5 s eq_refl Hs) | exact U4 ] | ]. assert (Hp := PI_RGT_0). unfold in_unit in U5.
  split; [ split; [ apply Rmult_le_pos; lra | ]; rewrite <- (Rmult_1_r (2 * PI)) at 2; apply Rmult_le_compat_l; lra | ].
  assert (W : within rg (drawn rg (u_range d))) by (apply drawn_within; [ apply range_well_formed; exact H1 | exact U1 ]).
  assert (P : 0 <= drawn rg (u_range d)).
  { destruct rg as [v | l | ]; cbn [within well_formed_range] in *; [ lra | | contradiction ]. destruct l as [ | lo [ | hi [ | q l]]]; try contradiction. lra. }
  rewrite <- (norm_direction _ (drawn az (u_azimuth d)) (drawn ze (u_zenith d)) P) at 2. unfold distance. f_equal. apply vec_eq; unfold vsub, zero; cbn [vx vy vz]; ring.
Qed.
Print Assumptions C96_single_target.
(** Velocities given as vectors are kept *)
Theorem C96_velocity_vectors : forall rg cs az ze v dec att c d, create_single rg cs az ze true (Vector v) dec att = Ok c ->
  exists q phase, single_paths c d = [TargetPath q v cs phase att false].
Proof. intros rg cs az ze v dec att c d H. destruct (created _ _ _ _ _ _ _ _ _ H) as (-> & _). eexists _, _. reflexivity. Qed.
Print Assumptions C96_velocity_vectors.
(** Without a target there are no paths; with one, the null hypothesis has none *)
Theorem C96_missing_targets : forall rg cs az ze ex vel dec att c d, create_single rg cs az ze ex vel dec att = Ok c ->
  null_paths (single_paths c d) = [] /\ (single_paths c d = [] <-> ex = false).
Proof.
  intros rg cs az ze ex vel dec att c d H. destruct (created _ _ _ _ _ _ _ _ _ H) as (-> & _). unfold single_paths. cbn [s_exists]. destruct ex; split; try reflexivity; split; intros E; (reflexivity || discriminate).
Qed.
Print Assumptions C96_missing_targets.
(** The range is not the distance from the receiver *)
Theorem C96_range_from_the_receiver_refuted : exists c d rx q v cs ph att st, create_single (Scalar 100) 1 (Scalar 0) (Scalar 0) true (Speed (Scalar 0)) 1 true = Ok c /\ unit_draws d /\
  single_paths c d = [TargetPath q v cs ph att st] /\ distance q rx <> 100.
Proof.
  exists (Single (Scalar 100) 1 (Scalar 0) (Scalar 0) true (Speed (Scalar 0)) 1 true), (Draws 0 0 0 0 0), (V 0 0 30).
  assert (E : create_single (Scalar 100) 1 (Scalar 0) (Scalar 0) true (Speed (Scalar 0)) 1 true = Ok (Single (Scalar 100) 1 (Scalar 0) (Scalar 0) true (Speed (Scalar 0)) 1 true)).
  { unfold create_single. cbn [check_range check_span check_speed bind]. unfold check_nonnegative. destruct (Rlt_dec 100 0); [ lra | ]. cbn [bind]. destruct (Rlt_dec 1 0); [ lra | ]. reflexivity. }
  eexists _, _, _, _, _, _. split; [ exact E | ]. split; [ repeat split; cbn; lra | ]. split; [ reflexivity | ]. cbn [s_range s_azimuth s_zenith drawn].
  unfold From_Spherical, distance, vsub, vscale. cbn [vx vy vz]. rewrite cos_0, sin_0.
  replace (V (100 * (0 * 1) - 0) (100 * (0 * 0) - 0) (100 * 1 - 30)) with (V 0 0 70) by (f_equal; ring).
  unfold norm, dot. cbn [vx vy vz]. replace (0 * 0 + 0 * 0 + 70 * 70) with (70 * 70) by ring. rewrite sqrt_square by lra. lra.
Qed.
Print Assumptions C96_range_from_the_receiver_refuted.
(** A range of zero is accepted, and refused when a device at the origin propagates *)
Theorem C96_zero_range : forall cs az ze ex vel dec att c d p dev, create_single (Scalar 0) cs az ze ex vel dec att = Ok c ->
  In p (single_paths c d) -> position dev = zero -> relative_velocity p dev dev = Raise ValueError.
Proof.
  intros cs az ze ex vel dec att c d p dev H Hp Hd. destruct (created _ _ _ _ _ _ _ _ _ H) as (-> & _). unfold single_paths in Hp. cbn [s_exists s_range drawn] in Hp.
  destruct ex; [ | contradiction ]. destruct Hp as [<- | []]. apply velocity_refused. intros [E _]. apply E. rewrite Hd. apply vec_eq; unfold vscale, zero; cbn [vx vy vz]; ring.
Qed.
Print Assumptions C96_zero_range.

(** ** Many targets *)
(** Every target contributes one path from where it is at that time; interference is added between separate devices *)
Theorem C96_targets : forall ts interference att time tx rx u ps, (forall t, In t ts -> rigid (t_pose t time)) ->
  multi_paths ts interference att time tx rx u = Ok ps ->
  exists qs, ps = qs ++ (if interference then if Req_EM_T (norm (vsub tx rx)) 0 then [] else [InterferencePath att true] else []) /\
  Forall2 (fun t p => exists cs phase, p = TargetPath (translation (t_pose t time)) (t_velocity t time) cs phase att (t_static t)) ts qs.
Proof.
  intros ts interference att time tx rx u ps Hr H. unfold multi_paths in H. destruct (mapM _ ts) as [qs | e] eqn:E; cbn [bind] in H; [ | discriminate ]. injection H as <-.
  exists qs. split.
  - destruct interference; cbn [andb]; [ | rewrite app_nil_r; reflexivity ]. destruct (Req_EM_T (norm (vsub tx rx)) 0) as [N | N].
    + replace (same_point tx rx) with true; [ cbn [negb]; rewrite app_nil_r; reflexivity | ]. symmetry. apply same_point_spec. apply vsub_zero. apply norm_zero. exact N.
    + replace (same_point tx rx) with false; [ reflexivity | ]. symmetry. apply same_point_false. intros ->. apply N. apply norm_self.
  - revert qs E. induction ts as [ | t ts IH]; intros qs E; cbn [mapM] in E; [ injection E as <-; constructor | ].
    destruct (sample_target t time tx rx u att) as [p | e] eqn:Et; cbn [bind] in E; [ | discriminate ].
    destruct (mapM _ ts) as [rs | e] eqn:Es; cbn [bind] in E; [ | discriminate ]. injection E as <-. constructor; [ | apply IH; [ intros q Hq; apply Hr; right; exact Hq | reflexivity ] ].
    unfold sample_target in Et. cbv zeta in Et. destruct (same_point _ _); [ discriminate | ]. destruct (same_point _ _); [ discriminate | ].
    destruct (transform_direction _ _ _) as [i | ]; cbn [bind] in Et; [ | discriminate ]. destruct (transform_direction _ _ _) as [o | ]; cbn [bind] in Et; [ | discriminate ].
    injection Et as <-. eexists _, _. reflexivity.
Qed.
Print Assumptions C96_targets.
(** Sampling fails exactly when a device is at a target's position mirrored through the origin and turned back *)
Theorem C96_collisions : forall ts interference att time tx rx u, (forall t, In t ts -> rigid (t_pose t time)) ->
  (multi_paths ts interference att time tx rx u = Raise RuntimeError <->
   exists t, In t ts /\ let m := vscale (-1) (mv (transpose (rotation (t_pose t time))) (translation (t_pose t time))) in m = tx \/ m = rx) /\
  ((forall e, multi_paths ts interference att time tx rx u = Raise e -> e = RuntimeError)).
Proof.
  intros ts interference att time tx rx u Hr.
  assert (K : (exists t, In t ts /\ let m := vscale (-1) (mv (transpose (rotation (t_pose t time))) (translation (t_pose t time))) in m = tx \/ m = rx) /\
              mapM (fun t => sample_target t time tx rx u att) ts = Raise RuntimeError \/
              (forall t, In t ts -> let m := vscale (-1) (mv (transpose (rotation (t_pose t time))) (translation (t_pose t time))) in m <> tx /\ m <> rx) /\
              exists qs, mapM (fun t => sample_target t time tx rx u att) ts = Ok qs).
  { induction ts as [ | t ts IH]; [ right; split; [ intros t [] | eexists; reflexivity ] | ].
    assert (Ht := Hr t (or_introl eq_refl)). destruct (sample_target_spec t time tx rx u att Ht) as [S1 S2]. rewrite (inverted_translation _ Ht) in *. cbv zeta in *.
    set (m := vscale (-1) _) in *. cbn [mapM].
    destruct (same_point m tx) eqn:Q1; [ | destruct (same_point m rx) eqn:Q2 ].
    - apply same_point_spec in Q1. left. split; [ exists t; split; [ left; reflexivity | left; exact Q1 ] | ]. rewrite (S1 (or_introl Q1)). reflexivity.
    - apply same_point_spec in Q2. left. split; [ exists t; split; [ left; reflexivity | right; exact Q2 ] | ]. rewrite (S1 (or_intror Q2)). reflexivity.
    - apply same_point_false in Q1, Q2. destruct (S2 Q1 Q2) as (i & o & E & _). rewrite E. cbn [bind].
      destruct (IH (fun q Hq => Hr q (or_intror Hq))) as [[[q [Hq Eq]] F] | [F [qs G]]].
      + left. split; [ exists q; split; [ right; exact Hq | exact Eq ] | ]. rewrite F. reflexivity.
      + right. rewrite G. cbn [bind]. split; [ | eexists; reflexivity ]. intros q [<- | Hq]; [ split; assumption | exact (F q Hq) ]. }
  unfold multi_paths. destruct K as [[K1 K2] | [K1 [qs K2]]]; rewrite K2; cbn [bind].
  - split; [ split; auto | intros e H; congruence ].
  - split; [ | discriminate ]. split; [ discriminate | ]. intros [t [Ht [E | E]]]; destruct (K1 t Ht); contradiction.
Qed.
Print Assumptions C96_collisions.
Definition still (p : vec) (section : vec -> vec -> R) : target := Tgt (fun _ => mkT eye p) (fun _ => zero) section true.
Lemma eye_proper : proper eye. Proof. split; [ apply mat_eq; cbn; ring | unfold det, eye; cbn; ring ]. Qed.
Lemma still_mirrored : forall p s time, translation (invert (t_pose (still p s) time)) = vscale (-1) p.
Proof. intros p s time. rewrite inverted_translation by exact eye_proper. cbn [still t_pose rotation translation]. f_equal. apply vec_eq; unfold mv, transpose, eye; cbn; ring. Qed.
(** A target at the device is not noticed, one at the mirrored position is refused *)
Theorem C96_collision_check_refuted : exists ts tx u, (forall t, In t ts -> rigid (t_pose t 0) /\ translation (t_pose t 0) = tx) /\
  (exists ps, ts <> [] /\ multi_paths ts false true 0 tx tx u = Ok ps) /\ multi_paths ts false true 0 (vscale (-1) tx) (vscale (-1) tx) u = Raise RuntimeError.
Proof.
  set (t := still (V 10 0 0) (fun _ _ => 1)). exists [t], (V 10 0 0), (fun _ _ => 0). split; [ intros q [<- | []]; split; [ exact eye_proper | reflexivity ] | ].
  destruct (sample_target_spec t 0 (V 10 0 0) (V 10 0 0) (fun _ _ => 0) true eye_proper) as [_ S2]. destruct (sample_target_spec t 0 (vscale (-1) (V 10 0 0)) (vscale (-1) (V 10 0 0)) (fun _ _ => 0) true eye_proper) as [S1 _].
  unfold t in *. rewrite still_mirrored in *. split.
  - destruct S2 as (i & e & E & _); [ intros E; injection E; lra | intros E; injection E; lra | ]. unfold multi_paths. cbn [mapM]. rewrite E. cbn [bind andb]. eexists. split; [ discriminate | reflexivity ].
  - unfold multi_paths. cbn [mapM]. rewrite S1 by (left; reflexivity). reflexivity.
Qed.
Print Assumptions C96_collision_check_refuted.
(** Cross sections are not asked for the directions in which the target sees the devices *)
Theorem C96_cross_section_directions_refuted : exists section tx rx u ps cs, section (seen_from (still (V 10 0 0) section) 0 tx (V 10 0 0)) (seen_from (still (V 10 0 0) section) 0 (V 10 0 0) rx) = 1 /\
  multi_paths [still (V 10 0 0) section] false true 0 tx rx u = Ok ps /\ ps = [TargetPath (V 10 0 0) zero cs 0 true true] /\ cs <> 1.
Proof.
  set (section := fun i _ : vec => if Rlt_dec 0 (vx i) then 1 else 2). set (t := still (V 10 0 0) section).
  exists section, (V 0 0 0), (V 0 0 0), (fun _ _ => 0).
  assert (N10 : norm (V 10 0 0) = 10) by (unfold norm, dot; cbn [vx vy vz]; replace (10 * 10 + 0 * 0 + 0 * 0) with (10 * 10) by ring; apply sqrt_square; lra).
  destruct (sample_target_spec t 0 (V 0 0 0) (V 0 0 0) (fun _ _ => 0) true eye_proper) as [_ S2]. unfold t in *. rewrite still_mirrored in *.
  destruct S2 as (i & e & E & Ei & _); [ intros E; injection E; lra | intros E; injection E; lra | ].
  exists [TargetPath (V 10 0 0) zero 2 0 true true], 2. split; [ | split; [ | split; [ reflexivity | lra ] ] ].
  - unfold section, seen_from. replace (vsub (V 10 0 0) (V 0 0 0)) with (V 10 0 0) by (apply vec_eq; cbn; ring). rewrite N10. cbn. destruct (Rlt_dec _ _) as [L | L]; [ reflexivity | ]. exfalso. apply L. lra.
  - unfold multi_paths. cbn [mapM]. rewrite E. cbn [bind andb still t_pose translation t_velocity t_section t_static].
    assert (Hi : vx i < 0).
    { cbn [still t_pose] in Ei. unfold transform_direction, from_cartesian, rotate_direction in Ei. cbn [rotation] in Ei. rewrite mv_eye in Ei.
      replace (vsub (vscale (-1) (V 10 0 0)) (V 0 0 0)) with (vscale (-1) (V 10 0 0)) in Ei by (apply vec_eq; cbn; ring).
      assert (Nm : norm (vscale (-1) (V 10 0 0)) = 10) by (transitivity (norm (V 10 0 0)); [ unfold norm; f_equal; unfold dot, vscale; cbn [vx vy vz]; ring | exact N10 ]).
      rewrite Nm in Ei. destruct (Req_EM_T 10 0); [ lra | ]. injection Ei as <-. cbn. lra. }
    unfold section. destruct (Rlt_dec 0 (vx i)); [ lra | ]. rewrite Rmult_0_r. reflexivity.
Qed.
Print Assumptions C96_cross_section_directions_refuted.
(** Fixed cross sections are not negative *)
Theorem C96_fixed_cross_sections : forall v, (0 <= v -> exists f, fixed_cross_section v = Ok f /\ forall i e, f i e = v) /\ (v < 0 -> fixed_cross_section v = Raise ValueError).
Proof. intros v. unfold fixed_cross_section. destruct (Rlt_dec v 0); split; intros H; try lra; [ reflexivity | eexists; split; reflexivity ]. Qed.
Print Assumptions C96_fixed_cross_sections.

(** Channels never hold a target twice and forget none; realizations keep their flags but follow the channel's targets *)
Theorem C96_target_sets : forall i a l, NoDup (c_targets (acts (new_channel i a) l)) /\ (forall t, In t (c_targets (acts (new_channel i a) l)) <-> In (AddTarget t) l).
Proof.
  intros i a l. induction l as [ | x l [IH1 IH2]] using rev_ind; [ split; [ constructor | intros t; split; intros [] ] | ].
  unfold acts in *. rewrite fold_left_app. cbn [fold_left]. set (c := fold_left act l (new_channel i a)) in *.
  assert (O : forall t, x <> AddTarget t -> (In t (c_targets c) <-> In (AddTarget t) (l ++ [x]))).
  { intros t Hx. rewrite IH2, in_app_iff. cbn [In]. split; [ intros H; left; exact H | intros [H | [H | []]]; [ exact H | contradiction ] ]. }
  destruct x as [t | b | b | ]; cbn [act c_targets].
  - destruct (existsb (Nat.eqb t) (c_targets c)) eqn:E.
    + apply existsb_exists in E as [u [Hu Eu]]. apply Nat.eqb_eq in Eu. subst u. split; [ exact IH1 | ]. intros u. destruct (Nat.eq_dec t u) as [<- | Hn].
      * split; [ intros _; apply in_or_app; right; left; reflexivity | intros _; exact Hu ].
      * apply O. congruence.
    + assert (Hn : ~ In t (c_targets c)). { intros Hin. assert (K : existsb (Nat.eqb t) (c_targets c) = true) by (apply existsb_exists; exists t; split; [ exact Hin | apply Nat.eqb_refl ]). congruence. }
      split; [ apply (NoDup_Add (a := t) (l := c_targets c)); [ rewrite <- (app_nil_r (c_targets c)) at 1; apply Add_app | split; assumption ] | ].
      intros u. rewrite in_app_iff. cbn [In]. destruct (Nat.eq_dec t u) as [<- | Hu].
      * split; [ intros _; apply in_or_app; right; left; reflexivity | intros _; right; left; reflexivity ].
      * rewrite <- (O u) by congruence. split; [ intros [H | [H | []]]; [ exact H | contradiction ] | intros H; left; exact H ].
  - split; [ exact IH1 | intros t; apply O; discriminate ].
  - split; [ exact IH1 | intros t; apply O; discriminate ].
  - split; [ exact IH1 | intros t; apply O; discriminate ].
Qed.
Print Assumptions C96_target_sets.
Theorem C96_realizations : forall i a l m k ts f b, sampled (acts (new_channel i a) l) k = Some (ts, f, b) ->
  exists ts', sampled (acts (new_channel i a) (l ++ m)) k = Some (ts', f, b) /\ forall t, In t ts' <-> In t ts \/ In (AddTarget t) m.
Proof.
  intros i a l m k ts f b H. exists (c_targets (acts (new_channel i a) (l ++ m))).
  assert (P : forall c n, exists more, c_realizations (acts c n) = c_realizations c ++ more).
  { intros c n. revert c. induction n as [ | x n IH]; intros c; [ exists []; symmetry; apply app_nil_r | ]. cbn [acts fold_left]. destruct (IH (act c x)) as [more E]. fold (acts (act c x) n). rewrite E.
    destruct x; cbn [act c_realizations]; try (exists more; reflexivity). eexists. rewrite <- app_assoc. reflexivity. }
  unfold sampled in *. assert (A : acts (new_channel i a) (l ++ m) = acts (acts (new_channel i a) l) m) by (unfold acts; apply fold_left_app).
  destruct (P (acts (new_channel i a) l) m) as [more E]. rewrite <- A in E.
  destruct (nth_error (c_realizations (acts (new_channel i a) l)) k) as [[f' b'] | ] eqn:N; [ | discriminate ]. injection H as <- <- <-. split.
  - rewrite E, nth_error_app1 by (apply nth_error_Some; rewrite N; discriminate). rewrite N. reflexivity.
  - intros t. destruct (C96_target_sets i a l) as [_ S1]. destruct (C96_target_sets i a (l ++ m)) as [_ S2]. rewrite S1, S2, in_app_iff. reflexivity.
Qed.
Print Assumptions C96_realizations.
(** Each realization has the flags last set before it *)
Theorem C96_realizations_flags : forall i a l, let n := length (filter (fun x => match x with Realize => true | _ => false end) l) in
  exists ts, sampled (acts (new_channel i a) (l ++ [Realize])) n = Some (ts, last_interference i l, last_attenuate a l).
Proof.
  intros i a l n. assert (A : acts (new_channel i a) (l ++ [Realize]) = act (acts (new_channel i a) l) Realize) by (unfold acts; rewrite fold_left_app; reflexivity).
  assert (I : forall c, length (c_realizations (acts c l)) = (length (c_realizations c) + n)%nat /\ c_interference (acts c l) = last_interference (c_interference c) l /\ c_attenuate (acts c l) = last_attenuate (c_attenuate c) l).
  { unfold n. clear n A. induction l as [ | x l IH]; intros c; [ cbn; split; [ lia | split; reflexivity ] | ]. change (acts c (x :: l)) with (acts (act c x) l). destruct (IH (act c x)) as (H1 & H2 & H3). rewrite H1, H2, H3.
    destruct x; cbn [act c_realizations c_interference c_attenuate filter length last_interference last_attenuate fold_left]; (split; [ try rewrite app_length; cbn [length]; lia | split; reflexivity ]). }
  destruct (I (new_channel i a)) as (H1 & H2 & H3). rewrite A. unfold sampled. cbn [act c_realizations c_targets new_channel length Nat.add c_interference c_attenuate] in *. rewrite H2, H3.
  rewrite nth_error_app2 by lia. rewrite H1, Nat.sub_diag. eexists. reflexivity.
Qed.
Print Assumptions C96_realizations_flags.
Theorem C96_fixed_realizations_refuted : exists l m, sampled (acts (new_channel true true) l) 0 <> None /\
  sampled (acts (new_channel true true) (l ++ m)) 0 <> sampled (acts (new_channel true true) l) 0.
Proof. exists [AddTarget 0; Realize], [AddTarget 1]. split; discriminate. Qed.
Print Assumptions C96_fixed_realizations_refuted.
Example C96_met : (exists c, create_single (Tuple [10; 20]) 1 (Tuple [0; 1]) (Scalar 1) true (Speed (Tuple [-5; 5])) 100 true = Ok c) /\ unit_draws (Draws (1 / 2) 0 1 1 (1 / 4)) /\
  (exists ps, multi_paths [still (V 10 0 0) (fun _ _ => 1); still (V 0 7 0) (fun _ _ => 2)] true true 0 (V 0 0 0) (V 1 0 0) (fun _ _ => 1 / 2) = Ok ps /\ length ps = 3%nat) /\
  sampled (acts (new_channel true true) [AddTarget 3; Realize; AddTarget 3]) 0 = Some ([3%nat], true, true).
Proof.
  split; [ | split; [ | split; [ | reflexivity ] ] ].
  - apply C96_accepted_configurations; try discriminate. cbn. lra.
  - unfold unit_draws, in_unit. cbn. lra.
  - destruct (sample_target_spec (still (V 10 0 0) (fun _ _ => 1)) 0 (V 0 0 0) (V 1 0 0) (fun _ _ => 1 / 2) true eye_proper) as [_ A].
    destruct (sample_target_spec (still (V 0 7 0) (fun _ _ => 2)) 0 (V 0 0 0) (V 1 0 0) (fun _ _ => 1 / 2) true eye_proper) as [_ B].
    rewrite still_mirrored in *. destruct A as (i & e & E & _); [ intros E; injection E; lra | intros E; injection E; lra | ].
    destruct B as (i' & e' & E' & _); [ intros F; injection F; lra | intros F; injection F; lra | ].
    unfold multi_paths. cbn [mapM]. rewrite E, E'. cbn [bind]. replace (same_point (V 0 0 0) (V 1 0 0)) with false by (symmetry; apply same_point_false; intros F; injection F; lra).
    eexists. split; reflexivity.
Qed.
