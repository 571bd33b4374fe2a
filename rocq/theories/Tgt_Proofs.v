(** Lemmas about radar targets. *)
From Coq Require Import List Reals ZArith Lia Lra Bool Arith.
From Verif Require Import Base BaseLemmas Rot_Model Rot_Spec Rot_Proofs Rch_Model Tgt_Model Tgt_Spec.
Import ListNotations.
Open Scope R_scope.

Lemma check_range_spec : forall a, (exists b, check_range a = Ok b) <-> well_formed_range a.
Proof.
  intros [v | l | ]; cbn [check_range well_formed_range].
  - destruct (Rlt_dec v 0); split; intros H; [ destruct H; discriminate | lra | lra | eexists; reflexivity ].
  - destruct l as [ | lo [ | hi [ | c l]]]; try (split; [ intros [b H]; discriminate | contradiction ]).
    destruct (Rlt_dec hi lo); [ split; [ intros [b H]; discriminate | lra ] | ]. destruct (Rlt_dec lo 0); split; intros H; [ destruct H; discriminate | lra | lra | eexists; reflexivity ].
  - split; [ intros [b H]; discriminate | contradiction ].
Qed.
Lemma check_range_same : forall a b, check_range a = Ok b -> b = a.
Proof.
  intros [v | l | ] b; cbn [check_range]; try discriminate.
  - destruct (Rlt_dec v 0); congruence.
  - destruct l as [ | lo [ | hi [ | c l]]]; try discriminate. destruct (Rlt_dec hi lo); [ discriminate | ]. destruct (Rlt_dec lo 0); congruence.
Qed.
Lemma check_span_spec : forall a, a <> Other -> ((exists b, check_span a = Ok b) <-> well_formed a).
Proof.
  intros [v | l | ] H; cbn [check_span well_formed]; [ split; [ auto | eexists; reflexivity ] | | contradiction ].
  destruct l as [ | lo [ | hi [ | c l]]]; try (split; [ intros [b E]; discriminate | contradiction ]).
  destruct (Rlt_dec hi lo); split; intros E; [ destruct E; discriminate | lra | lra | eexists; reflexivity ].
Qed.
Lemma check_span_same : forall a b, check_span a = Ok b -> b = a.
Proof.
  intros [v | l | ] b; cbn [check_span]; try congruence.
  destruct l as [ | lo [ | hi [ | c l]]]; try discriminate. destruct (Rlt_dec hi lo); congruence.
Qed.
Lemma check_speed_same : forall a b, check_speed a = Ok b -> b = a.
Proof. intros [s | v] b; cbn [check_speed]; [ | congruence ]. destruct (check_span s) eqn:E; cbn [bind]; [ | discriminate ]. rewrite (check_span_same _ _ E). congruence. Qed.
Lemma nonnegative_same : forall v w, check_nonnegative v = Ok w -> w = v /\ 0 <= v.
Proof. intros v w. unfold check_nonnegative. destruct (Rlt_dec v 0); [ discriminate | ]. intros H. injection H as <-. split; [ reflexivity | lra ]. Qed.
Lemma drawn_within : forall a u, well_formed a -> in_unit u -> within a (drawn a u).
Proof.
  intros [v | l | ] u Ha Hu; cbn [well_formed within drawn] in *; [ reflexivity | | contradiction ].
  destruct l as [ | lo [ | hi [ | c l]]]; try contradiction. unfold in_unit in Hu.
  assert (0 <= (hi - lo) * u) by (apply Rmult_le_pos; lra). assert ((hi - lo) * u <= (hi - lo) * 1) by (apply Rmult_le_compat_l; lra). lra.
Qed.
Lemma range_well_formed : forall a, well_formed_range a -> well_formed a.
Proof. intros [v | l | ]; cbn; auto. destruct l as [ | lo [ | hi [ | c l]]]; try contradiction. lra. Qed.
Lemma created : forall rg cs az ze ex vel dec att c, create_single rg cs az ze ex vel dec att = Ok c ->
  c = Single rg cs az ze ex vel dec att /\ well_formed_range rg /\ 0 <= cs /\ (az <> Other -> well_formed az) /\ (ze <> Other -> well_formed ze) /\
  (forall s, vel = Speed s -> s <> Other -> well_formed s) /\ 0 <= dec.
Proof.
  intros rg cs az ze ex vel dec att c H. unfold create_single in H.
  destruct (check_range rg) as [r | ] eqn:E1; cbn [bind] in H; [ | discriminate ].
  destruct (check_nonnegative cs) as [k | ] eqn:E2; cbn [bind] in H; [ | discriminate ].
  destruct (check_span az) as [a | ] eqn:E3; cbn [bind] in H; [ | discriminate ].
  destruct (check_span ze) as [z | ] eqn:E4; cbn [bind] in H; [ | discriminate ].
  destruct (check_speed vel) as [v | ] eqn:E5; cbn [bind] in H; [ | discriminate ].
  destruct (check_nonnegative dec) as [d | ] eqn:E6; cbn [bind] in H; [ | discriminate ]. injection H as <-.
  destruct (nonnegative_same _ _ E2) as [-> H2]. destruct (nonnegative_same _ _ E6) as [-> H6].
  assert (W1 : well_formed_range rg) by (apply check_range_spec; eexists; exact E1).
  rewrite (check_range_same _ _ E1), (check_span_same _ _ E3), (check_span_same _ _ E4), (check_speed_same _ _ E5).
  split; [ reflexivity | ]. split; [ exact W1 | ]. split; [ exact H2 | ].
  split; [ intros Ho; apply check_span_spec; [ exact Ho | eexists; exact E3 ] | ].
  split; [ intros Ho; apply check_span_spec; [ exact Ho | eexists; exact E4 ] | ].
  split; [ | exact H6 ]. intros s -> Ho. apply check_span_spec; [ exact Ho | ]. cbn [check_speed] in E5. destruct (check_span s) as [b | ]; cbn [bind] in E5; [ eexists; reflexivity | discriminate ].
Qed.
Lemma norm_direction : forall r a z, 0 <= r -> norm (vscale r (From_Spherical a z)) = r.
Proof.
  intros r a z H. unfold norm. replace (dot (vscale r (From_Spherical a z)) (vscale r (From_Spherical a z))) with (r * r * dot (From_Spherical a z) (From_Spherical a z)) by (unfold dot, vscale; cbn [vx vy vz]; ring).
  rewrite spherical_unit, Rmult_1_r. apply sqrt_square. exact H.
Qed.

Lemma same_point_spec : forall a b, same_point a b = true <-> a = b.
Proof.
  intros [a1 a2 a3] [b1 b2 b3]. unfold same_point. cbn [vx vy vz].
  destruct (Req_EM_T a1 b1), (Req_EM_T a2 b2), (Req_EM_T a3 b3); cbn; split; intros H; try discriminate; try congruence.
Qed.
Lemma same_point_false : forall a b, same_point a b = false <-> a <> b.
Proof. intros a b. rewrite <- same_point_spec. destruct (same_point a b); split; intros H; [ discriminate | exfalso; apply H; reflexivity | discriminate | reflexivity ]. Qed.
Lemma direction_defined : forall t v, rigid t -> v <> zero -> exists d, transform_direction t v true = Ok d.
Proof.
  intros t v Ht Hv. unfold transform_direction, from_cartesian. destruct (Req_EM_T (norm (rotate_direction t v)) 0) as [E | E]; [ | eexists; reflexivity ].
  exfalso. apply Hv. apply norm_zero. unfold norm in *. unfold rotate_direction in E. rewrite dot_proper in E by exact Ht. exact E.
Qed.
Lemma vsub_nonzero : forall a b, a <> b -> vsub a b <> zero.
Proof. intros [a1 a2 a3] [b1 b2 b3] H E. apply H. unfold vsub, zero in E. cbn in E. injection E. intros. f_equal; lra. Qed.
Lemma sample_target_spec : forall t time tx rx u att, rigid (t_pose t time) ->
  let m := translation (invert (t_pose t time)) in
  ((m = tx \/ m = rx) -> sample_target t time tx rx u att = Raise RuntimeError) /\
  (m <> tx -> m <> rx -> exists i e, sample_target t time tx rx u att =
    Ok (TargetPath (translation (t_pose t time)) (t_velocity t time) (t_section t i e) (2 * PI * u m rx) att (t_static t)) /\
    transform_direction (t_pose t time) (vsub m tx) true = Ok i /\ transform_direction (t_pose t time) (vsub rx m) true = Ok e).
Proof.
  intros t time tx rx u att Hr m. split.
  - unfold sample_target. cbv zeta. fold m. intros [E | E].
    + rewrite (proj2 (same_point_spec m tx) E). reflexivity.
    + destruct (same_point m tx); [ reflexivity | ]. rewrite (proj2 (same_point_spec m rx) E). reflexivity.
  - intros H1 H2. unfold sample_target. cbv zeta. fold m. rewrite (proj2 (same_point_false m tx) H1), (proj2 (same_point_false m rx) H2).
    destruct (direction_defined (t_pose t time) (vsub m tx) Hr (vsub_nonzero _ _ H1)) as [i Ei].
    destruct (direction_defined (t_pose t time) (vsub rx m) Hr (vsub_nonzero rx m (fun E => H2 (eq_sym E)))) as [e Ee].
    rewrite Ei, Ee. cbn [bind]. exists i, e. split; [ reflexivity | split; reflexivity ].
Qed.
Lemma inverted_translation : forall t, rigid t -> translation (invert t) = vscale (-1) (mv (transpose (rotation t)) (translation t)).
Proof. intros t H. unfold invert. cbn [translation]. rewrite (minv_proper _ H). apply vec_eq; unfold vscale; cbn [vx vy vz]; ring. Qed.
