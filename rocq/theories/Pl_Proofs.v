(** Proofs on path losses and line of sight probabilities. *)
From Coq Require Import Reals List Lra Psatz.
From Verif Require Import Base BaseLemmas Rot_Model Pl_Model Pl_Spec.
Open Scope R_scope.

Lemma ln10_pos : 0 < ln 10. Proof. rewrite <- ln_1. apply ln_increasing; lra. Qed.
Lemma log10_lt a b : 0 < a -> a < b -> log10 a < log10 b.
Proof.
  intros Ha Hab. unfold log10, Rdiv. apply Rmult_lt_compat_r; [apply Rinv_0_lt_compat, ln10_pos|]. apply ln_increasing; assumption.
Qed.
Lemma log10_le a b : 0 < a -> a <= b -> log10 a <= log10 b.
Proof. intros Ha [H|H]; [left; apply log10_lt; assumption | right; subst; reflexivity]. Qed.
Lemma log10_1 : log10 1 = 0. Proof. unfold log10. rewrite ln_1. unfold Rdiv. ring. Qed.
Lemma log10_10 : log10 10 = 1. Proof. unfold log10. field. pose proof ln10_pos. lra. Qed.
Lemma log10_mult a b : 0 < a -> 0 < b -> log10 (a * b) = log10 a + log10 b.
Proof. intros. unfold log10. rewrite ln_mult by assumption. field. pose proof ln10_pos. lra. Qed.
Lemma log10_sq a : 0 < a -> log10 (a ^ 2) = 2 * log10 a.
Proof. intros. replace (a ^ 2) with (a * a) by ring. rewrite log10_mult by assumption. ring. Qed.
Lemma log10_div a b : 0 < a -> 0 < b -> log10 (a / b) = log10 a - log10 b.
Proof.
  intros. unfold Rdiv. rewrite log10_mult by (try apply Rinv_0_lt_compat; assumption). unfold log10. rewrite ln_Rinv by assumption.
  field. pose proof ln10_pos. lra.
Qed.
Lemma log10_ge0 a : 1 <= a -> 0 <= log10 a.
Proof. intros. rewrite <- log10_1. apply log10_le; lra. Qed.
Lemma mlog_ok a : 0 < a -> mlog a = Ok (log10 a).
Proof. intros. unfold mlog. destruct (Rle_dec a 0); [lra | reflexivity]. Qed.
Lemma mlog_bad a : a <= 0 -> mlog a = Raise ValueError.
Proof. intros. unfold mlog. destruct (Rle_dec a 0); [reflexivity | lra]. Qed.
Lemma mlog_value a v : mlog a = Ok v -> 0 < a /\ v = log10 a.
Proof. unfold mlog. destruct (Rle_dec a 0); intros E; inversion E. split; [lra | reflexivity]. Qed.
Lemma ghz_pos p : 0 < fc p -> 0 < ghz p.
Proof. intros. unfold ghz. apply Rdiv_lt_0_compat; [assumption | apply pow_lt; lra]. Qed.
Lemma curve_ok p c k q : 0 < fc p -> 0 < d3 p -> curve p c k q = Ok (c + k * log10 (d3 p) + q * log10 (ghz p)).
Proof. intros F D. unfold curve. rewrite (mlog_ok (d3 p)) by assumption. rewrite mlog_ok by (apply ghz_pos; assumption). reflexivity. Qed.
Lemma curve_dB p c k q : 0 < fc p -> 0 < d3 p -> curve p c k q = Ok (dB c k (d3 p) q (fc p)).
Proof. intros F D. rewrite curve_ok by assumption. reflexivity. Qed.
Lemma curve_bad p c k q : fc p <= 0 -> curve p c k q = Raise ValueError.
Proof.
  intros F. unfold curve.
  assert (G : ghz p <= 0).
  { unfold ghz, Rdiv. assert (0 < / 10 ^ 9) by (apply Rinv_0_lt_compat, pow_lt; lra). nra. }
  rewrite (mlog_bad (ghz p)) by exact G.
  unfold mlog. destruct (Rle_dec (d3 p) 0); reflexivity.
Qed.
Lemma upper_bounds a b x y : a = Ok x -> upper a b = Ok y -> x <= y.
Proof. intros -> H. unfold upper in H. cbn in H. destruct b as [v|e]; cbn in H; inversion H. apply Rmax_l. Qed.

Lemma urban_terminal_range p : 3 / 2 <= urban_terminal p <= 45 / 2.
Proof. unfold urban_terminal, Rmax, Rmin. repeat destruct Rle_dec; lra. Qed.
Lemma breakpoint_pos h p : 1 < h -> 0 < fc p -> 0 < breakpoint h p.
Proof.
  intros H F. pose proof (urban_terminal_range p). unfold breakpoint, Rdiv.
  assert (0 < / 10 ^ 8) by (apply Rinv_0_lt_compat, pow_lt; lra).
  repeat apply Rmult_lt_0_compat; try assumption; lra.
Qed.
Lemma far_pos h p : 1 < h -> 0 < fc p -> 0 < breakpoint h p ^ 2 + (h - urban_terminal p) ^ 2.
Proof. intros H F. pose proof (pow_lt _ 2 (breakpoint_pos h p H F)). pose proof (pow2_ge_0 (h - urban_terminal p)). lra. Qed.
Lemma urban_los_ok h c n f p : 1 < h -> 0 < fc p -> 0 < d3 p ->
  urban_los h c n f p = Ok (if Rlt_dec (d2 p) (breakpoint h p) then c + n * log10 (d3 p) + 20 * log10 (ghz p)
    else c + 40 * log10 (d3 p) + 20 * log10 (ghz p) - f * log10 (breakpoint h p ^ 2 + (h - urban_terminal p) ^ 2)).
Proof.
  intros H F D. unfold urban_los. rewrite !curve_ok by assumption. rewrite mlog_ok by (apply far_pos; assumption).
  destruct Rlt_dec; reflexivity.
Qed.

Lemma nlos_ge c p a b : pathloss c LOS p = Ok a -> pathloss c NLOS p = Ok b -> a <= b.
Proof.
  destruct c as [t|t h| | |]; cbn [pathloss]; intros Ha Hb.
  - unfold office_loss in *. exact (upper_bounds _ _ _ _ Ha Hb).
  - unfold factory_loss in *. exact (upper_bounds _ _ _ _ Ha Hb).
  - unfold micro_loss in *. exact (upper_bounds _ _ _ _ Ha Hb).
  - unfold macro_loss in *. exact (upper_bounds _ _ _ _ Ha Hb).
  - inversion Ha; inversion Hb. unfold rural_loss. apply Rmax_l.
Qed.

Lemma defined c s p : 0 < fc p -> 0 < d3 p -> exists l, pathloss c s p = Ok l.
Proof.
  intros F D.
  destruct c as [t|t h| | |]; cbn [pathloss].
  - unfold office_loss. rewrite !curve_ok by assumption. destruct s; cbn; eexists; reflexivity.
  - unfold factory_loss. rewrite !curve_ok by assumption. destruct s, t; cbn; eexists; reflexivity.
  - unfold micro_loss. rewrite urban_los_ok by (try assumption; lra). rewrite !curve_ok by assumption. destruct s; cbn; eexists; reflexivity.
  - unfold macro_loss. rewrite urban_los_ok by (try assumption; lra). rewrite !curve_ok by assumption. destruct s; cbn; eexists; reflexivity.
  - eexists; reflexivity.
Qed.

Lemma no_carrier c s p : c <> Rural -> s <> O2I -> fc p <= 0 -> pathloss c s p = Raise ValueError.
Proof.
  intros Hc Hs F.
  assert (U : forall h k n f, urban_los h k n f p = Raise ValueError).
  { intros. unfold urban_los. rewrite !curve_bad by assumption. destruct Rlt_dec; reflexivity. }
  destruct c as [t|t h| | |]; cbn [pathloss]; try contradiction.
  - unfold office_loss. rewrite !curve_bad by assumption. destruct s; reflexivity.
  - unfold factory_loss. rewrite !curve_bad by assumption. destruct s; reflexivity.
  - unfold micro_loss. rewrite U. destruct s; try reflexivity; contradiction.
  - unfold macro_loss. rewrite U. destruct s; try reflexivity; contradiction.
Qed.

(** Distances *)
Lemma geometric_parameters f a b : a <> b -> geometric (parameters f a b).
Proof.
  intros N. unfold geometric, parameters. cbn [d3 d2 base_height terminal_height].
  set (u := (vx a - vx b) ^ 2 + (vy a - vy b) ^ 2).
  pose proof (pow2_ge_0 (vx a - vx b)) as Q1. pose proof (pow2_ge_0 (vy a - vy b)) as Q2. pose proof (pow2_ge_0 (vz a - vz b)) as Q3.
  assert (Hu : 0 <= u) by (unfold u; lra).
  assert (Hd : dot (vsub a b) (vsub a b) = u + (vz a - vz b) ^ 2) by (unfold u, dot, vsub; cbn [vx vy vz]; ring).
  assert (Hp : 0 < dot (vsub a b) (vsub a b)).
  { destruct (Rle_lt_or_eq_dec 0 (dot (vsub a b) (vsub a b))) as [H|H]; [rewrite Hd; lra | exact H |].
    exfalso. apply N. rewrite Hd in H. unfold u in H. destruct a as [a1 a2 a3], b as [b1 b2 b3]. cbn [vx vy vz] in *.
    assert (Z : forall t, t ^ 2 = 0 -> t = 0) by (intros t Ht; destruct (Req_dec t 0) as [E|E]; [exact E | exfalso; exact (pow_nonzero t 2 E Ht)]).
    f_equal; apply Rminus_diag_uniq, Z; lra. }
  repeat split.
  - unfold norm. apply sqrt_lt_R0. exact Hp.
  - apply sqrt_pos.
  - unfold Rmax, Rmin. repeat destruct Rle_dec; lra.
  - unfold norm. replace (sqrt (dot (vsub a b) (vsub a b)) ^ 2) with (dot (vsub a b) (vsub a b)) by (rewrite pow2_sqrt; lra).
    rewrite pow2_sqrt by exact Hu. rewrite Hd. unfold Rmax, Rmin. repeat destruct Rle_dec; nra.
Qed.
Lemma geometric_le p : geometric p -> d2 p <= d3 p.
Proof. intros (H1 & H2 & H3 & H4). assert (0 <= (base_height p - terminal_height p) ^ 2) by nra. nra. Qed.
Lemma geometric_order p q : geometric p -> geometric q -> same_heights p q -> d2 p < d2 q -> d3 p < d3 q.
Proof. intros (H1 & H2 & H3 & H4) (K1 & K2 & K3 & K4) (E1 & E2 & E3) L. rewrite E2, E3 in H4. nra. Qed.
Lemma norm_swap a b : norm (vsub a b) = norm (vsub b a).
Proof. unfold norm. f_equal. unfold dot, vsub. cbn [vx vy vz]. ring. Qed.
Lemma parameters_swap f a b : parameters f a b = parameters f b a.
Proof.
  unfold parameters. rewrite norm_swap, Rmax_comm, Rmin_comm. f_equal. f_equal. ring.
Qed.

(** Monotony *)
Lemma urban_same h p q : same_heights p q -> breakpoint h p = breakpoint h q /\ urban_terminal p = urban_terminal q /\ ghz p = ghz q.
Proof. intros (A & B & C). unfold breakpoint, urban_terminal, ghz. rewrite A, C. auto. Qed.

Lemma h_power_pos : 0 < h_power. Proof. apply exp_pos. Qed.
Lemma h_power_le : h_power <= 25.
Proof.
  unfold h_power. replace 25 with (Rpower 5 2).
  - apply Rle_Rpower; lra.
  - replace 2 with (1 + 1) by ring. rewrite Rpower_plus, Rpower_1 by lra. lra.
Qed.
Lemma rural_1_lt p a b : 0 < fc p -> 0 < a -> a < b -> rural_1 p a < rural_1 p b.
Proof.
  intros F Ha Hab. unfold rural_1. pose proof h_power_pos as Hh. pose proof (ghz_pos p F) as G. pose proof PI_RGT_0 as P.
  assert (L1 : log10 (40 * PI * a * ghz p / 3) < log10 (40 * PI * b * ghz p / 3)).
  { generalize dependent (ghz p). intros g G. apply log10_lt; unfold Rdiv.
    - apply Rmult_lt_0_compat; [|lra]. apply Rmult_lt_0_compat; [|exact G]. apply Rmult_lt_0_compat; [|lra]. lra.
    - apply Rmult_lt_compat_r; [lra|]. apply Rmult_lt_compat_r; [exact G|]. apply Rmult_lt_compat_l; lra. }
  assert (L2 : log10 a < log10 b) by (apply log10_lt; lra).
  assert (L3 : 0 <= log10 5) by (apply log10_ge0; lra).
  assert (L4 : 0 < Rmin (3 / 100 * h_power) 10) by (unfold Rmin; destruct Rle_dec; lra).
  assert (Rmin (3 / 100 * h_power) 10 * log10 a < Rmin (3 / 100 * h_power) 10 * log10 b) by (apply Rmult_lt_compat_l; assumption).
  assert (2 / 1000 * log10 5 * a <= 2 / 1000 * log10 5 * b) by (apply Rmult_le_compat_l; lra).
  lra.
Qed.
Lemma rural_base_range p : 5 <= rural_base p <= 150.
Proof. unfold rural_base, Rmax, Rmin. repeat destruct Rle_dec; lra. Qed.
Lemma rural_terminal_range p : 1 <= rural_terminal p <= 10.
Proof. unfold rural_terminal, Rmax, Rmin. repeat destruct Rle_dec; lra. Qed.
Lemma rural_breakpoint_pos p : 0 < fc p -> 0 < rural_breakpoint p.
Proof.
  intros F. pose proof (rural_base_range p). pose proof (rural_terminal_range p). pose proof PI_RGT_0 as P. unfold rural_breakpoint, Rdiv.
  generalize dependent PI. intros c P.
  assert (0 < / 10 ^ 8) by (apply Rinv_0_lt_compat, pow_lt; lra).
  repeat apply Rmult_lt_0_compat; try assumption; lra.
Qed.
Lemma rural_same p q : same_heights p q -> rural_breakpoint p = rural_breakpoint q /\ forall d, rural_1 p d = rural_1 q d.
Proof.
  intros (A & B & C). split; [|intros d]; unfold rural_breakpoint, rural_base, rural_terminal, rural_1, ghz; rewrite ?A, ?B, ?C; reflexivity.
Qed.
Lemma rural_beyond p : 0 < fc p -> geometric p -> rural_breakpoint p < d2 p -> 0 < log10 (d3 p / rural_breakpoint p).
Proof.
  intros F G L. pose proof (geometric_le p G). pose proof (rural_breakpoint_pos p F). rewrite <- log10_1. apply log10_lt; [lra|].
  apply Rmult_lt_reg_r with (rural_breakpoint p); [assumption|]. unfold Rdiv. rewrite Rmult_assoc, Rinv_l by lra. lra.
Qed.
Lemma rural_los_lt p q : 0 < fc p -> geometric p -> geometric q -> same_heights p q -> d2 p < d2 q -> rural_los p < rural_los q.
Proof.
  intros F Gp Gq S L. pose proof (geometric_order p q Gp Gq S L) as L3. destruct (rural_same p q S) as [E1 E2].
  assert (Fq : 0 < fc q) by (destruct S as [A _]; lra).
  pose proof (rural_breakpoint_pos p F) as Bp.
  assert (H1 : rural_1 p (d3 p) < rural_1 p (d3 q)) by (apply rural_1_lt; [assumption | apply Gp | assumption]).
  unfold rural_los. rewrite <- E1, <- E2.
  destruct (Rle_dec (d2 p) (rural_breakpoint p)) as [Hp|Hp], (Rle_dec (d2 q) (rural_breakpoint p)) as [Hq|Hq]; try lra.
  - pose proof (rural_beyond q Fq Gq) as K. rewrite <- E1 in K. specialize (K ltac:(lra)). lra.
  - assert (log10 (d3 p / rural_breakpoint p) < log10 (d3 q / rural_breakpoint p)).
    { apply log10_lt; unfold Rdiv.
      - apply Rmult_lt_0_compat; [apply Gp | apply Rinv_0_lt_compat; assumption].
      - apply Rmult_lt_compat_r; [apply Rinv_0_lt_compat; assumption | assumption]. }
    lra.
Qed.

Lemma urban_los_lt h c n f p q : 1 < h -> 0 < n -> 0 < fc p -> geometric p -> geometric q -> same_heights p q -> d2 p < d2 q ->
  (d2 q < breakpoint h q \/ breakpoint h p <= d2 p) ->
  exists a b, urban_los h c n f p = Ok a /\ urban_los h c n f q = Ok b /\ a < b.
Proof.
  intros Hh Hn F Gp Gq S L Side. pose proof (geometric_order p q Gp Gq S L) as L3. destruct (urban_same h p q S) as (E1 & E2 & E3).
  assert (Fq : 0 < fc q) by (destruct S as [A _]; lra).
  rewrite (urban_los_ok h c n f p) by (try assumption; apply Gp). rewrite (urban_los_ok h c n f q) by (try assumption; apply Gq).
  rewrite <- E1, <- E2, <- E3 in *. do 2 eexists. split; [reflexivity|]. split; [reflexivity|].
  assert (log10 (d3 p) < log10 (d3 q)) by (apply log10_lt; [apply Gp | assumption]).
  destruct (Rlt_dec (d2 p) (breakpoint h p)), (Rlt_dec (d2 q) (breakpoint h p)); nra.
Qed.
Lemma curve_lt p q c k f : 0 < k -> 0 < fc p -> geometric p -> geometric q -> same_heights p q -> d2 p < d2 q ->
  exists a b, curve p c k f = Ok a /\ curve q c k f = Ok b /\ a < b.
Proof.
  intros Hk F Gp Gq S L. pose proof (geometric_order p q Gp Gq S L) as L3.
  assert (Fq : 0 < fc q) by (destruct S as [A _]; lra).
  rewrite (curve_ok p), (curve_ok q) by (try assumption; try apply Gp; apply Gq).
  do 2 eexists. split; [reflexivity|]. split; [reflexivity|].
  assert (log10 (d3 p) < log10 (d3 q)) by (apply log10_lt; [apply Gp | assumption]).
  assert (E : ghz p = ghz q) by (unfold ghz; destruct S as [-> _]; reflexivity). rewrite E. nra.
Qed.

(** Probabilities *)
Lemma exp_gt0 x : 0 < exp x. Proof. apply exp_pos. Qed.
Lemma exp_lt1 x : x < 0 -> exp x < 1.
Proof. intros. rewrite <- exp_0. apply exp_increasing. assumption. Qed.
Lemma exp_le1 x : x <= 0 -> exp x <= 1.
Proof. intros [H|H]; [left; apply exp_lt1; assumption | subst; rewrite exp_0; lra]. Qed.
Lemma exp_ge1 x : 0 <= x -> 1 <= exp x.
Proof. intros. pose proof (exp_ineq1_le x). lra. Qed.
Lemma neg_div_lt x k : 0 < x -> 0 < k -> - x / k < 0.
Proof. intros. unfold Rdiv. assert (0 < / k) by (apply Rinv_0_lt_compat; assumption). nra. Qed.
Lemma div_ge1 a b : 0 < b -> b <= a -> 1 <= a / b.
Proof. intros. apply Rmult_le_reg_r with b; [assumption|]. unfold Rdiv. rewrite Rmult_assoc, Rinv_l; lra. Qed.
Lemma div_lt1 a b : 0 < b -> a < b -> a / b < 1.
Proof. intros. apply Rmult_lt_reg_r with b; [assumption|]. unfold Rdiv. rewrite Rmult_assoc, Rinv_l; lra. Qed.

Lemma urban_split d : urban_probability d = 1 - (1 - 18 / d) * (1 - exp (- d / 36)).
Proof. unfold urban_probability. ring. Qed.
Lemma urban_ge1 d : 0 < d -> d <= 18 -> 1 <= urban_probability d.
Proof.
  intros H L. rewrite urban_split. pose proof (div_ge1 18 d H L). assert (exp (- d / 36) < 1) by (apply exp_lt1, neg_div_lt; lra). nra.
Qed.
Lemma urban_lt1 d : 18 < d -> urban_probability d < 1.
Proof.
  intros H. rewrite urban_split. pose proof (div_lt1 18 d ltac:(lra) H). assert (exp (- d / 36) < 1) by (apply exp_lt1, neg_div_lt; lra). nra.
Qed.
Lemma urban_pos d : 0 < d -> 0 < urban_probability d.
Proof.
  intros H. destruct (Rle_lt_dec d 18) as [L|L]; [pose proof (urban_ge1 d H L); lra|].
  unfold urban_probability. pose proof (div_lt1 18 d ltac:(lra) L). pose proof (exp_gt0 (- d / 36)).
  assert (0 < 18 / d) by (apply Rdiv_lt_0_compat; lra). nra.
Qed.
Lemma inv_lt a b : 0 < a -> a < b -> 18 / b < 18 / a.
Proof. intros. unfold Rdiv. apply Rmult_lt_compat_l; [lra|]. apply Rinv_lt_contravar; [nra | assumption]. Qed.
Lemma urban_decreasing a b : 18 <= a -> a < b -> urban_probability b < urban_probability a.
Proof.
  intros Ha Hb. rewrite !urban_split.
  pose proof (inv_lt a b ltac:(lra) Hb) as L.
  assert (0 <= 1 - 18 / a).
  { assert (18 / a <= 1); [|lra]. apply Rmult_le_reg_r with a; [lra|]. unfold Rdiv. rewrite Rmult_assoc, Rinv_l; lra. }
  assert (exp (- b / 36) < exp (- a / 36)) by (apply exp_increasing; lra).
  assert (exp (- a / 36) < 1) by (apply exp_lt1, neg_div_lt; lra).
  nra.
Qed.
Lemma certain_iff c p : (forall h, c <> Factory HH h) -> certain c p <-> 1 <= probability c p.
Proof.
  intros N. assert (D : forall u, decide c u p = if Rlt_dec u (probability c p) then LOS else NLOS).
  { intros u. destruct c as [t|[] h| | |]; try reflexivity. exfalso. exact (N h eq_refl). }
  unfold certain. split; intros H.
  - destruct (Rle_lt_dec 1 (probability c p)) as [L|L]; [exact L|]. exfalso.
    specialize (H (Rmax 0 (probability c p))). rewrite D in H.
    assert (K : 0 <= Rmax 0 (probability c p) < 1) by (unfold Rmax; destruct Rle_dec; lra).
    specialize (H K). destruct (Rlt_dec (Rmax 0 (probability c p)) (probability c p)) as [Q|Q]; [|discriminate].
    pose proof (Rmax_r 0 (probability c p)). lra.
  - intros u Hu. rewrite D. destruct (Rlt_dec u (probability c p)); [reflexivity | lra].
Qed.
Lemma never_iff c p : (forall h, c <> Factory HH h) -> never c p <-> probability c p <= 0.
Proof.
  intros N. assert (D : forall u, decide c u p = if Rlt_dec u (probability c p) then LOS else NLOS).
  { intros u. destruct c as [t|[] h| | |]; try reflexivity. exfalso. exact (N h eq_refl). }
  unfold never. split; intros H.
  - destruct (Rle_lt_dec (probability c p) 0) as [L|L]; [exact L|]. exfalso.
    specialize (H 0 ltac:(lra)). rewrite D in H. destruct (Rlt_dec 0 (probability c p)); [discriminate | lra].
  - intros u Hu. rewrite D. destruct (Rlt_dec u (probability c p)); [lra | reflexivity].
Qed.
Lemma ln_lt0 x : 0 < x -> x < 1 -> ln x < 0.
Proof. intros. rewrite <- ln_1. apply ln_increasing; assumption. Qed.
Lemma exp_pow x n : exp x ^ n = exp (INR n * x).
Proof. induction n; [cbn; rewrite Rmult_0_l, exp_0; reflexivity|]. rewrite <- tech_pow_Rmult, IHn, <- exp_plus. f_equal. rewrite S_INR. ring. Qed.
Lemma exp_ge_power x n : 0 <= x -> (1 + x) ^ n <= exp (INR n * x).
Proof. intros H. rewrite <- exp_pow. apply pow_incr. split; [lra | apply exp_ineq1_le]. Qed.
(** exp(-44/70.8) < 0.539 *)
Lemma open_office_step : exp (- (49 - 5) / (708 / 10)) < 539 / 1000.
Proof.
  pose proof (exp_ge_power ((49 - 5) / (708 / 10) / 64) 64 ltac:(lra)) as H.
  replace (INR 64) with 64 in H by (rewrite INR_IZR_INZ; reflexivity).
  replace (64 * ((49 - 5) / (708 / 10) / 64)) with ((49 - 5) / (708 / 10)) in H by field.
  assert (K : 1000 / 539 < (1 + (49 - 5) / (708 / 10) / 64) ^ 64).
  { replace 64%nat with (2 * (2 * (2 * (2 * (2 * 2)))))%nat by reflexivity. rewrite !pow_mult.
    assert (A : 1 + (49 - 5) / (708 / 10) / 64 >= 1009710 / 1000000) by lra.
    assert (Q : forall a b c, 0 < b -> a >= b -> b ^ 2 >= c -> a ^ 2 >= c) by (intros; nra).
    apply (Q _ _ (1019514 / 1000000)) in A; [|lra|lra].
    apply (Q _ _ (1039408 / 1000000)) in A; [|lra|lra].
    apply (Q _ _ (1080368 / 1000000)) in A; [|lra|lra].
    apply (Q _ _ (1167195 / 1000000)) in A; [|lra|lra].
    apply (Q _ _ (1362344 / 1000000)) in A; [|lra|lra].
    apply (Q _ _ (1855981 / 1000000)) in A; [|lra|lra].
    lra. }
  replace (- (49 - 5) / (708 / 10)) with (- ((49 - 5) / (708 / 10))) by field. rewrite exp_Ropp.
  assert (L : 1000 / 539 < exp ((49 - 5) / (708 / 10))) by lra.
  apply Rinv_lt_contravar in L; [|nra]. lra.
Qed.

(** Attenuation beyond a metre and a gigahertz *)
Lemma dB_pos c k q a b : 0 < c -> 0 <= k -> 0 <= q -> 0 <= a -> 0 <= b -> 0 < c + k * a + q * b.
Proof. intros. assert (0 <= k * a) by (apply Rmult_le_pos; assumption). assert (0 <= q * b) by (apply Rmult_le_pos; assumption). lra. Qed.
Lemma ghz_ge1 p : 10 ^ 9 <= fc p -> 1 <= ghz p.
Proof. intros. unfold ghz. apply div_ge1; [apply pow_lt; lra | assumption]. Qed.
Lemma urban_far_bound h n f c p : 10 <= h <= 25 -> 10 <= c -> 0 <= n -> 0 <= f <= 95 / 10 -> 10 ^ 9 <= fc p -> 1 <= d3 p -> geometric p ->
  exists l, urban_los h c n f p = Ok l /\ 0 < l.
Proof.
  intros Hh Hc Hn Hf F D G.
  assert (F0 : 0 < fc p) by (pose proof (pow_lt 10 9 ltac:(lra)); lra).
  assert (D0 : 0 < d3 p) by lra.
  rewrite urban_los_ok by (try assumption; lra). eexists. split; [reflexivity|].
  pose proof (log10_ge0 _ (ghz_ge1 p F)) as Lf. pose proof (log10_ge0 _ D) as Ld.
  destruct (Rlt_dec (d2 p) (breakpoint h p)) as [L|L].
  - apply dB_pos; lra.
  - pose proof (geometric_le p G) as Le. pose proof (urban_terminal_range p) as T. pose proof (breakpoint_pos h p ltac:(lra) F0) as B.
    assert (B60 : 60 <= breakpoint h p).
    { unfold breakpoint. set (g := fc p / 10 ^ 8).
      assert (Hg : 10 <= g).
      { unfold g. apply Rmult_le_reg_r with (10 ^ 8); [apply pow_lt; lra|]. unfold Rdiv. rewrite Rmult_assoc, Rinv_l by (apply pow_nonzero; lra). lra. }
      replace (4 * (h - 1) * (urban_terminal p - 1) * fc p / 10 ^ 8 / 3) with (4 * (h - 1) * (urban_terminal p - 1) * g / 3) by (unfold g; field; apply pow_nonzero; lra).
      assert (K1 : 9 / 2 <= (h - 1) * (urban_terminal p - 1)).
      { replace (9 / 2) with (9 * (1 / 2)) by field. apply Rmult_le_compat; lra. }
      assert (K2 : 9 / 2 * 10 <= (h - 1) * (urban_terminal p - 1) * g) by (apply Rmult_le_compat; lra).
      replace (4 * (h - 1) * (urban_terminal p - 1) * g / 3) with ((h - 1) * (urban_terminal p - 1) * g * (4 / 3)) by field. lra. }
    set (b := breakpoint h p) in *. set (u := urban_terminal p) in *.
    assert (M : b ^ 2 + (h - u) ^ 2 <= 10 * d3 p ^ 2).
    { assert (b <= d3 p) by lra. assert (b ^ 2 <= d3 p ^ 2) by (apply pow_incr; lra).
      assert ((h - u) ^ 2 <= b ^ 2).
      { rewrite <- (pow2_abs (h - u)). apply pow_incr. split; [apply Rabs_pos|]. apply Rabs_le. lra. }
      pose proof (pow2_ge_0 (d3 p)). lra. }
    assert (P0 : 0 < b ^ 2 + (h - u) ^ 2) by (pose proof (pow_lt b 2 B); pose proof (pow2_ge_0 (h - u)); lra).
    pose proof (log10_le _ _ P0 M) as M1. rewrite log10_mult, log10_sq, log10_10 in M1 by (try apply pow_lt; lra).
    set (x := log10 (b ^ 2 + (h - u) ^ 2)) in *. set (d := log10 (d3 p)) in *. set (w := log10 (ghz p)) in *.
    assert (f * x <= f * (1 + 2 * d)) by (apply Rmult_le_compat_l; lra).
    assert (f * (1 + 2 * d) <= 95 / 10 * (1 + 2 * d)) by (apply Rmult_le_compat_r; lra).
    lra.
Qed.
Lemma rural_1_pos p d : 10 ^ 9 <= fc p -> 1 <= d -> 0 < rural_1 p d.
Proof.
  intros F D. unfold rural_1. pose proof h_power_pos as Hp. pose proof h_power_le as Hl.
  pose proof (ghz_ge1 p F) as G. pose proof (log10_ge0 _ D) as Ld. pose proof (log10_ge0 5 ltac:(lra)) as L5.
  assert (P : 3 < PI) by (pose proof PI2_3_2; unfold PI2 in *; lra).
  assert (X : 10 <= 40 * PI * d * ghz p / 3).
  { assert (1 <= d * ghz p) by (replace 1 with (1 * 1) by ring; apply Rmult_le_compat; lra).
    assert (3 * 1 <= PI * (d * ghz p)) by (apply Rmult_le_compat; lra).
    replace (40 * PI * d * ghz p / 3) with (PI * (d * ghz p) * (40 / 3)) by field. lra. }
  pose proof (log10_le 10 _ ltac:(lra) X) as Lx. rewrite log10_10 in Lx.
  assert (A : 0 <= Rmin (3 / 100 * h_power) 10 * log10 d).
  { apply Rmult_le_pos; [|exact Ld]. unfold Rmin. destruct Rle_dec; lra. }
  assert (B : Rmin (44 / 1000 * h_power) (1477 / 100) <= 44 / 1000 * 25) by (eapply Rle_trans; [apply Rmin_l | lra]).
  assert (C : 0 <= 2 / 1000 * log10 5 * d) by (apply Rmult_le_pos; [lra | lra]).
  lra.
Qed.
Lemma attenuates c p : 10 ^ 9 <= fc p -> 1 <= d3 p -> geometric p -> exists l, pathloss c LOS p = Ok l /\ 0 < l.
Proof.
  intros F D G.
  assert (F0 : 0 < fc p) by (pose proof (pow_lt 10 9 ltac:(lra)); lra).
  pose proof (log10_ge0 _ (ghz_ge1 p F)) as Lf. pose proof (log10_ge0 _ D) as Ld.
  destruct c as [t|t h| | |]; cbn [pathloss].
  - unfold office_loss. rewrite curve_ok by (try assumption; lra). eexists. split; [reflexivity|]. apply dB_pos; lra.
  - unfold factory_loss. rewrite curve_ok by (try assumption; lra). eexists. split; [reflexivity|]. apply dB_pos; lra.
  - unfold micro_loss. apply urban_far_bound; try assumption; lra.
  - unfold macro_loss. apply urban_far_bound; try assumption; lra.
  - eexists. split; [reflexivity|]. unfold rural_loss, rural_los. pose proof (rural_1_pos p (d3 p) F D) as R1.
    destruct Rle_dec as [L|L]; [exact R1|]. pose proof (rural_beyond p F0 G ltac:(lra)). lra.
Qed.
Lemma power_lt1 l : 0 < l -> Rpower 10 (- l / 10) < 1.
Proof. intros. rewrite <- (Rpower_O 10) by lra. apply Rpower_lt; lra. Qed.
Lemma power_gt1 l : l < 0 -> 1 < Rpower 10 (- l / 10).
Proof. intros. rewrite <- (Rpower_O 10) by lra. apply Rpower_lt; lra. Qed.
Lemma power_anti a b : a <= b -> Rpower 10 (- b / 10) <= Rpower 10 (- a / 10).
Proof. intros. apply Rle_Rpower; lra. Qed.

(** Probabilities decrease *)
Lemma exp_dec k a b : 0 < k -> a <= b -> exp (- b / k) <= exp (- a / k).
Proof.
  intros Hk [H|H]; [|subst; lra]. left. apply exp_increasing. unfold Rdiv. apply Rmult_lt_compat_r; [apply Rinv_0_lt_compat; assumption | lra].
Qed.
(** exp(-5.3/4.7) > 0.32 *)
Lemma mixed_office_step : 32 / 100 <= exp (- (65 / 10 - 12 / 10) / (47 / 10)).
Proof.
  assert (E : exp (- (65 / 10 - 12 / 10) / (47 / 10)) = exp (- (53 / 47) / 128) ^ 128).
  { rewrite exp_pow. f_equal. rewrite INR_IZR_INZ. cbn [Z.of_nat Pos.of_succ_nat Pos.succ]. field. }
  rewrite E.
  assert (A : 1 - 53 / 47 / 128 <= exp (- (53 / 47) / 128)) by (pose proof (exp_ineq1_le (- (53 / 47) / 128)); lra).
  replace 128%nat with (2 * (2 * (2 * (2 * (2 * (2 * 2))))))%nat by reflexivity. rewrite !pow_mult.
  assert (Q : forall a b c, 0 < b -> b <= a -> c <= b ^ 2 -> c <= a ^ 2) by (intros; nra).
  assert (A0 : 991190 / 1000000 <= exp (- (53 / 47) / 128)) by lra. clear A. rename A0 into A.
  apply (Q _ _ (982457 / 1000000)) in A; [|lra|lra].
  apply (Q _ _ (965221 / 1000000)) in A; [|lra|lra].
  apply (Q _ _ (931651 / 1000000)) in A; [|lra|lra].
  apply (Q _ _ (867973 / 1000000)) in A; [|lra|lra].
  apply (Q _ _ (753377 / 1000000)) in A; [|lra|lra].
  apply (Q _ _ (567576 / 1000000)) in A; [|lra|lra].
  apply (Q _ _ (322142 / 1000000)) in A; [|lra|lra].
  lra.
Qed.
Lemma decide_los c u p : (forall h, c <> Factory HH h) -> decide c u p = LOS <-> u < probability c p.
Proof.
  intros N. assert (D : decide c u p = if Rlt_dec u (probability c p) then LOS else NLOS).
  { destruct c as [t|[] h| | |]; try reflexivity. exfalso. exact (N h eq_refl). }
  rewrite D. destruct Rlt_dec; split; intros; try assumption; try reflexivity; try discriminate; lra.
Qed.
Lemma subspace_same t h p q : same_heights p q -> subspace t h p = subspace t h q.
Proof. intros (A & B & C). unfold subspace. rewrite B, C. reflexivity. Qed.
Lemma mixed_decreasing p q : d2 p < d2 q -> probability (Office MIXED) q <= probability (Office MIXED) p.
Proof.
  intros L. cbn [probability].
  destruct (Rle_dec (d2 p) (12 / 10)) as [A|A].
  - destruct (Rle_dec (d2 q) (12 / 10)); [lra|]. destruct (Rlt_dec (d2 q) (65 / 10)).
    + left. apply exp_lt1, neg_div_lt; lra.
    + assert (exp (- (d2 q - 65 / 10) / (326 / 10)) <= 1); [|lra].
      apply exp_le1. unfold Rdiv. assert (0 < / (326 * / 10)) by lra. nra.
  - destruct (Rle_dec (d2 q) (12 / 10)) as [B|B]; [lra|]. destruct (Rlt_dec (d2 p) (65 / 10)) as [A2|A2].
    + destruct (Rlt_dec (d2 q) (65 / 10)) as [B2|B2]; [apply exp_dec; lra|].
      assert (E1 : exp (- (d2 q - 65 / 10) / (326 / 10)) <= 1) by (apply exp_le1; unfold Rdiv; assert (0 < / (326 * / 10)) by lra; nra).
      assert (E2 : exp (- (65 / 10 - 12 / 10) / (47 / 10)) <= exp (- (d2 p - 12 / 10) / (47 / 10))) by (apply exp_dec; lra).
      pose proof mixed_office_step. lra.
    + destruct (Rlt_dec (d2 q) (65 / 10)) as [B2|B2]; [lra|].
      assert (exp (- (d2 q - 65 / 10) / (326 / 10)) <= exp (- (d2 p - 65 / 10) / (326 / 10))) by (apply exp_dec; lra). lra.
Qed.
Lemma decisions_nested c u p q : c <> Office OPEN -> geometric p -> geometric q -> same_heights p q -> d2 p < d2 q -> 0 <= u < 1 ->
  decide c u q = LOS -> decide c u p = LOS.
Proof.
  intros N Gp Gq S L U. pose proof (geometric_order p q Gp Gq S L) as L3.
  destruct c as [[]|t h| | |].
  - intros H. apply decide_los in H; [|discriminate]. apply decide_los; [discriminate|]. pose proof (mixed_decreasing p q L). lra.
  - contradiction.
  - assert (K : t = HH \/ t <> HH) by (destruct t; auto; right; discriminate). destruct K as [->|K]; [reflexivity|].
    intros H. apply decide_los in H; [|congruence]. apply decide_los; [congruence|].
    cbn [probability] in *. rewrite <- (subspace_same t h p q S) in H.
    destruct (Rlt_dec 0 (subspace t h p)) as [Q|Q]; [|lra]. pose proof (exp_dec (subspace t h p) (d2 p) (d2 q) Q ltac:(lra)). lra.
  - intros H. apply decide_los in H; [|discriminate]. apply decide_los; [discriminate|]. cbn [probability] in *.
    destruct (Rle_lt_dec (d3 p) 18) as [M|M]; [pose proof (urban_ge1 (d3 p) (proj1 Gp) M); lra|].
    pose proof (urban_decreasing (d3 p) (d3 q) ltac:(lra) L3). lra.
  - intros H. apply decide_los in H; [|discriminate]. apply decide_los; [discriminate|]. cbn [probability] in *.
    destruct (Rle_lt_dec (d3 p) 18) as [M|M]; [pose proof (urban_ge1 (d3 p) (proj1 Gp) M); lra|].
    pose proof (urban_decreasing (d3 p) (d3 q) ltac:(lra) L3). lra.
  - intros H. apply decide_los in H; [|discriminate]. apply decide_los; [discriminate|]. cbn [probability] in *.
    pose proof (exp_dec 1000 (d2 p - 10) (d2 q - 10) ltac:(lra) ltac:(lra)). lra.
Qed.
Lemma certain_office_mixed p : certain (Office MIXED) p <-> d2 p <= 12 / 10.
Proof.
  rewrite certain_iff by discriminate. cbn [probability]. split; intros H.
  - destruct (Rle_dec (d2 p) (12 / 10)) as [A|A]; [exact A|]. exfalso. destruct Rlt_dec as [B|B].
    + assert (exp (- (d2 p - 12 / 10) / (47 / 10)) < 1) by (apply exp_lt1, neg_div_lt; lra). lra.
    + assert (exp (- (d2 p - 65 / 10) / (326 / 10)) <= 1) by (apply exp_le1; unfold Rdiv; assert (0 < / (326 * / 10)) by lra; nra). lra.
  - destruct Rle_dec; lra.
Qed.
Lemma certain_office_open p : certain (Office OPEN) p <-> d2 p <= 5.
Proof.
  rewrite certain_iff by discriminate. cbn [probability]. split; intros H.
  - destruct (Rle_dec (d2 p) 5) as [A|A]; [exact A|]. exfalso. destruct Rle_dec as [B|B].
    + assert (exp (- (d2 p - 5) / (708 / 10)) < 1) by (apply exp_lt1, neg_div_lt; lra). lra.
    + assert (exp (- (d2 p - 49) / (2117 / 10)) < 1) by (apply exp_lt1, neg_div_lt; lra). lra.
  - destruct Rle_dec; lra.
Qed.
Lemma certain_urban c p : c = Micro \/ c = Macro -> geometric p -> certain c p <-> d3 p <= 18.
Proof.
  intros Hc G. rewrite certain_iff by (destruct Hc; subst; discriminate).
  assert (E : probability c p = urban_probability (d3 p)) by (destruct Hc; subst; reflexivity). rewrite E. split; intros H.
  - destruct (Rle_lt_dec (d3 p) 18) as [M|M]; [exact M|]. pose proof (urban_lt1 _ M). lra.
  - apply urban_ge1; [apply G | exact H].
Qed.
Lemma certain_rural p : certain Rural p <-> d2 p <= 10.
Proof.
  rewrite certain_iff by discriminate. cbn [probability]. split; intros H.
  - destruct (Rle_lt_dec (d2 p) 10) as [M|M]; [exact M|]. assert (exp (- (d2 p - 10) / 1000) < 1) by (apply exp_lt1, neg_div_lt; lra). lra.
  - apply exp_ge1. lra.
Qed.
Lemma possible c p : (forall t h, c <> Factory t h) -> geometric p -> 0 < probability c p.
Proof.
  intros N G. destruct c as [[]|t h| | |]; cbn [probability].
  - destruct Rle_dec; [lra|]. pose proof (exp_gt0 (- (d2 p - 65 / 10) / (326 / 10))). destruct Rlt_dec; [apply exp_gt0 | lra].
  - destruct Rle_dec; [lra|]. pose proof (exp_gt0 (- (d2 p - 49) / (2117 / 10))). destruct Rle_dec; [apply exp_gt0 | lra].
  - exfalso. exact (N t h eq_refl).
  - apply urban_pos, G.
  - apply urban_pos, G.
  - apply exp_gt0.
Qed.
Lemma standard_macro_lt a b : 0 < a -> a <= b -> 18 < b -> urban_probability b < standard_macro_probability a.
Proof.
  intros Ha Hab Hb.
  assert (S1 : forall d, standard_macro_probability d = 1 - (1 - 18 / d) * (1 - exp (- d / 63))) by (intros; unfold standard_macro_probability; ring).
  assert (K : urban_probability b < standard_macro_probability b).
  { rewrite S1, urban_split. pose proof (div_lt1 18 b ltac:(lra) Hb).
    assert (exp (- b / 36) < exp (- b / 63)) by (apply exp_increasing; lra). nra. }
  destruct (Rle_lt_dec a 18) as [M|M].
  - pose proof (urban_lt1 b Hb). rewrite S1. pose proof (div_ge1 18 a Ha M).
    assert (exp (- a / 63) < 1) by (apply exp_lt1, neg_div_lt; lra). nra.
  - assert (standard_macro_probability b <= standard_macro_probability a); [|lra]. rewrite !S1.
    assert (18 / b <= 18 / a) by (destruct Hab as [Q|Q]; [left; apply inv_lt; lra | subst; lra]).
    pose proof (div_lt1 18 a ltac:(lra) M). pose proof (exp_dec 63 a b ltac:(lra) Hab).
    assert (exp (- a / 63) < 1) by (apply exp_lt1, neg_div_lt; lra). nra.
Qed.
