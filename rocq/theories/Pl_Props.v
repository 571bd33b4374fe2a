(** C111: path losses and line of sight decisions of the 3GPP scenarios. *)
From Coq Require Import Reals List Lra Psatz.
From Verif Require Import Base BaseLemmas Rot_Model Pl_Model Pl_Spec Pl_Proofs.
Open Scope R_scope.

(** A link at 2 GHz between a mast of 10 m and a terminal at 1.5 m, 100 m apart *)
Definition mast : vec := V 0 0 10.
Definition phone : vec := V 100 0 (3 / 2).
Lemma mast_phone : mast <> phone. Proof. intros E. inversion E. lra. Qed.

(** Whatever the positions of the two devices, a link fails only for identical positions or (below) for carriers that are not positive. *)
Theorem C111_defined : forall c expected u carrier tx rx, 0 < carrier ->
  link c expected u carrier tx rx = Raise RuntimeError \/ tx <> rx /\ exists s g, link c expected u carrier tx rx = Ok (s, g) /\ 0 < g /\
    s = match expected with Some e => e | None => decide c u (parameters carrier tx rx) end.
Proof.
  intros c expected u carrier tx rx F. unfold link.
  destruct (Req_EM_T (d3 (parameters carrier tx rx)) 0) as [E|E]; [left; reflexivity | right].
  assert (N : tx <> rx).
  { intros ->. apply E. unfold parameters, norm, dot, vsub. cbn [d3 vx vy vz]. rewrite !Rminus_diag_eq by reflexivity.
    replace (0 * 0 + 0 * 0 + 0 * 0) with 0 by ring. apply sqrt_0. }
  split; [exact N|]. destruct (geometric_parameters carrier tx rx N) as (D & _).
  set (s := match expected with Some e => e | None => decide c u (parameters carrier tx rx) end).
  destruct (defined c s (parameters carrier tx rx) F D) as [l El]. rewrite El. do 2 eexists. split; [reflexivity|].
  split; [apply exp_pos | reflexivity].
Qed.
Theorem C111_identical_positions : forall c expected u carrier tx rx, 0 < carrier ->
  link c expected u carrier tx rx = Raise RuntimeError <-> tx = rx.
Proof.
  intros c expected u carrier tx rx F. split; intros H.
  - destruct (C111_defined c expected u carrier tx rx F) as [_ | (_ & s & g & E & _)]; [|congruence].
    unfold link in H. destruct (Req_EM_T (d3 (parameters carrier tx rx)) 0) as [E|E].
    + assert (Dec : tx = rx \/ tx <> rx) by (destruct tx as [a1 a2 a3], rx as [b1 b2 b3];
        destruct (Req_dec a1 b1), (Req_dec a2 b2), (Req_dec a3 b3); subst; auto; right; intros Q; inversion Q; contradiction).
      destruct Dec as [Q|Q]; [exact Q|]. destruct (geometric_parameters carrier tx rx Q). lra.
    + exfalso. destruct (geometric_parameters carrier tx rx) as (D & _).
      { intros ->. apply E. unfold parameters, norm, dot, vsub. cbn [d3 vx vy vz]. rewrite !Rminus_diag_eq by reflexivity.
        replace (0 * 0 + 0 * 0 + 0 * 0) with 0 by ring. apply sqrt_0. }
      destruct (defined c (match expected with Some e => e | None => decide c u (parameters carrier tx rx) end) (parameters carrier tx rx) F D) as [l El].
      rewrite El in H. discriminate.
  - subst. unfold link. destruct Req_EM_T as [E|E]; [reflexivity|]. exfalso. apply E.
    unfold parameters, norm, dot, vsub. cbn [d3 vx vy vz]. rewrite !Rminus_diag_eq by reflexivity.
    replace (0 * 0 + 0 * 0 + 0 * 0) with 0 by ring. apply sqrt_0.
Qed.
Print Assumptions C111_defined.
Print Assumptions C111_identical_positions.
Example C111_defined_met : 0 < 2 * 10 ^ 9 /\ link Micro None (1 / 2) (2 * 10 ^ 9) mast mast = Raise RuntimeError.
Proof. assert (P : 0 < 2 * 10 ^ 9) by (pose proof (pow_lt 10 9 ltac:(lra)); lra). split; [exact P|]. apply C111_identical_positions; [exact P | reflexivity]. Qed.

(** Refuted: devices without a carrier frequency (the default) cannot be linked, except over rural macrocells or from the outside to the inside. *)
Theorem C111_carrier_refuted : forall c expected u tx rx carrier, carrier <= 0 -> tx <> rx -> c <> Rural -> expected <> Some O2I ->
  link c expected u carrier tx rx = Raise ValueError.
Proof.
  intros c expected u tx rx carrier F N Hc He. unfold link.
  destruct (geometric_parameters carrier tx rx N) as (D & _).
  destruct Req_EM_T as [E|E]; [lra|].
  set (s := match expected with Some e => e | None => decide c u (parameters carrier tx rx) end).
  rewrite (no_carrier c s); [reflexivity | exact Hc | | exact F].
  unfold s. destruct expected as [e|]; [congruence|]. unfold decide. destruct c as [?|[]| | |]; try destruct Rlt_dec; discriminate.
Qed.
Print Assumptions C111_carrier_refuted.
Example C111_carrier_refuted_met : link (Office OPEN) None (1 / 2) 0 mast phone = Raise ValueError.
Proof. apply C111_carrier_refuted; try discriminate; [lra | exact mast_phone]. Qed.

(** Swapping transmitter and receiver changes nothing. *)
Theorem C111_reciprocal : forall c expected u carrier tx rx, link c expected u carrier tx rx = link c expected u carrier rx tx.
Proof. intros. unfold link. rewrite parameters_swap. reflexivity. Qed.
Print Assumptions C111_reciprocal.

(** Without a line of sight, at least as much is lost as with it: at most the same power arrives. *)
Theorem C111_nlos : forall c u carrier tx rx a b,
  link c (Some LOS) u carrier tx rx = Ok (LOS, a) -> link c (Some NLOS) u carrier tx rx = Ok (NLOS, b) -> b <= a.
Proof.
  intros c u carrier tx rx a b. unfold link. destruct Req_EM_T; [discriminate|].
  destruct (pathloss c LOS _) as [l|] eqn:El; [|discriminate]. destruct (pathloss c NLOS _) as [n'|] eqn:En; [|discriminate].
  cbn. intros A B. inversion A. inversion B. apply power_anti. exact (nlos_ge _ _ _ _ El En).
Qed.
Print Assumptions C111_nlos.
Example C111_nlos_met : exists a b, link Macro (Some LOS) 0 (2 * 10 ^ 9) mast phone = Ok (LOS, a) /\ link Macro (Some NLOS) 0 (2 * 10 ^ 9) mast phone = Ok (NLOS, b).
Proof.
  assert (P : 0 < 2 * 10 ^ 9) by (pose proof (pow_lt 10 9 ltac:(lra)); lra).
  destruct (C111_defined Macro (Some LOS) 0 _ mast phone P) as [E|(_ & s & a & E & _ & ->)]; [apply C111_identical_positions in E; [exfalso; exact (mast_phone E) | exact P]|].
  destruct (C111_defined Macro (Some NLOS) 0 _ mast phone P) as [E'|(_ & s & b & E' & _ & ->)]; [apply C111_identical_positions in E'; [exfalso; exact (mast_phone E') | exact P]|].
  exists a, b. split; assumption.
Qed.

(** Above one metre and one gigahertz, every scenario attenuates with and without line of sight. *)
Theorem C111_attenuates : forall c s p, s <> O2I -> 10 ^ 9 <= fc p -> 1 <= d3 p -> geometric p -> exists l, pathloss c s p = Ok l /\ 0 < l.
Proof.
  intros c s p Hs F D G. destruct (attenuates c p F D G) as (l & El & Hl).
  destruct s; [exists l; split; assumption | | contradiction].
  assert (F0 : 0 < fc p) by (pose proof (pow_lt 10 9 ltac:(lra)); lra).
  destruct (defined c NLOS p F0 (proj1 G)) as [m Em]. exists m. split; [exact Em|]. pose proof (nlos_ge _ _ _ _ El Em). lra.
Qed.
Print Assumptions C111_attenuates.
Example C111_attenuates_met : geometric (parameters (2 * 10 ^ 9) mast phone) /\ 1 <= d3 (parameters (2 * 10 ^ 9) mast phone).
Proof.
  pose proof (geometric_parameters (2 * 10 ^ 9) mast phone mast_phone) as G. split; [exact G|].
  destruct G as (A & B & C & D). cbn [d2 base_height terminal_height parameters] in *.
  unfold mast, phone in D. cbn [vx vy vz] in D. rewrite Rmax_left, Rmin_right in D by lra. rewrite pow2_sqrt in D by nra. unfold mast, phone in *. nra.
Qed.
(** Refuted: closer, it amplifies (at 1 cm and 1 GHz a link in an office gains 2.2 dB). *)
Theorem C111_gain_refuted : exists p l, 0 < d3 p /\ fc p = 10 ^ 9 /\ pathloss (Office MIXED) LOS p = Ok l /\ l < 0 /\ 1 < Rpower 10 (- l / 10).
Proof.
  exists (mkParams (10 ^ 9) (1 / 100) (1 / 100) 1 1), (- 22 / 10). cbn [d3 fc]. split; [lra|]. split; [reflexivity|]. split; [|split; [lra|apply power_gt1; lra]].
  cbn [pathloss]. unfold office_loss. rewrite curve_ok by (cbn [fc d3]; try lra; apply pow_lt; lra). f_equal.
  unfold ghz. cbn [fc d3]. replace (10 ^ 9 / 10 ^ 9) with 1 by (field; apply pow_nonzero; lra).
  replace (1 / 100) with (1 / 10 ^ 2) by field. rewrite log10_div by (try apply pow_lt; lra). rewrite log10_sq, log10_10, log10_1 by lra. lra.
Qed.
Print Assumptions C111_gain_refuted.

(** Moving away at constant heights loses power, as long as the breakpoint of the urban scenarios is not crossed. *)
Definition not_crossing (c : scenario) (p q : params) : Prop :=
  match c with
  | Micro => d2 q < breakpoint 10 q \/ breakpoint 10 p <= d2 p
  | Macro => d2 q < breakpoint 25 q \/ breakpoint 25 p <= d2 p
  | _ => True
  end.
Theorem C111_increasing : forall c p q, 0 < fc p -> geometric p -> geometric q -> same_heights p q -> d2 p < d2 q -> not_crossing c p q ->
  exists a b, pathloss c LOS p = Ok a /\ pathloss c LOS q = Ok b /\ a < b.
Proof.
  intros c p q F Gp Gq S L X. destruct c as [t|t h| | |]; cbn [pathloss] in *.
  - apply curve_lt; try assumption; lra.
  - apply curve_lt; try assumption; lra.
  - apply urban_los_lt; try assumption; lra.
  - apply urban_los_lt; try assumption; lra.
  - do 2 eexists. split; [reflexivity|]. split; [reflexivity|]. apply rural_los_lt; assumption.
Qed.
Print Assumptions C111_increasing.
Definition at_2d (f d b t : R) : params := mkParams f (sqrt (d ^ 2 + (b - t) ^ 2)) d b t.
Lemma at_2d_geometric f d b t : 0 < d -> t <= b -> geometric (at_2d f d b t).
Proof.
  intros H K. pose proof (pow_lt d 2 H). pose proof (pow2_ge_0 (b - t)). unfold geometric, at_2d. cbn [d3 d2 base_height terminal_height].
  repeat split; try lra; [apply sqrt_lt_R0; lra | apply pow2_sqrt; lra].
Qed.
Example C111_increasing_met : geometric (at_2d (10 ^ 9) 3000 30 2) /\ geometric (at_2d (10 ^ 9) 9000 30 2) /\
  same_heights (at_2d (10 ^ 9) 3000 30 2) (at_2d (10 ^ 9) 9000 30 2) /\ not_crossing Rural (at_2d (10 ^ 9) 3000 30 2) (at_2d (10 ^ 9) 9000 30 2).
Proof. split; [apply at_2d_geometric; lra|]. split; [apply at_2d_geometric; lra|]. split; [repeat split|exact I]. Qed.

(** Ten times the distance or the carrier adds a fixed number of decibels; the reference is one metre and one gigahertz. *)
Definition decade (c : scenario) : option (R * R * R) :=
  match c with
  | Office _ => Some (324 / 10, 173 / 10, 20)
  | Factory _ _ => Some (3184 / 100, 215 / 10, 19)
  | Micro => Some (324 / 10, 21, 20)
  | Macro => Some (28, 22, 20)
  | Rural => None
  end.
Definition before_breakpoint (c : scenario) (p : params) : Prop :=
  match c with Micro => d2 p < breakpoint 10 p | Macro => d2 p < breakpoint 25 p | _ => True end.
Theorem C111_decades : forall c r k q p p', decade c = Some (r, k, q) -> 0 < fc p -> 0 < d3 p -> 0 < fc p' -> d3 p' = 10 * d3 p ->
  before_breakpoint c p -> before_breakpoint c p' ->
  (fc p' = fc p -> exists l, pathloss c LOS p = Ok l /\ pathloss c LOS p' = Ok (l + k)) /\
  (fc p' = 10 * fc p -> exists l, pathloss c LOS p = Ok l /\ pathloss c LOS p' = Ok (l + k + q)) /\
  (fc p = 10 ^ 9 -> d3 p = 1 -> pathloss c LOS p = Ok r).
Proof.
  intros c r k q p p' E F D F' D' B B'.
  assert (G : 0 < ghz p) by (apply ghz_pos; exact F).
  assert (X : forall p0, 0 < fc p0 -> 0 < d3 p0 -> before_breakpoint c p0 -> pathloss c LOS p0 = Ok (r + k * log10 (d3 p0) + q * log10 (ghz p0))).
  { intros p0 F0 D0 B0. destruct c as [t|t h| | |]; cbn [decade pathloss] in *; inversion E; subst; clear E.
    - apply curve_ok; assumption.
    - apply curve_ok; assumption.
    - unfold micro_loss. rewrite urban_los_ok by (try assumption; lra). cbn [before_breakpoint] in B0. destruct Rlt_dec; [reflexivity | lra].
    - unfold macro_loss. rewrite urban_los_ok by (try assumption; lra). cbn [before_breakpoint] in B0. destruct Rlt_dec; [reflexivity | lra]. }
  rewrite (X p F D B). rewrite (X p' F' ltac:(lra) B'). rewrite D', log10_mult, log10_10 by lra. split; [|split].
  - intros Q. eexists. split; [reflexivity|]. f_equal. assert (ghz p' = ghz p) as -> by (unfold ghz; rewrite Q; reflexivity). ring.
  - intros Q. eexists. split; [reflexivity|]. f_equal. assert (ghz p' = 10 * ghz p) as -> by (unfold ghz; rewrite Q; field; apply pow_nonzero; lra).
    rewrite log10_mult, log10_10 by lra. ring.
  - intros Q1 Q2. f_equal. unfold ghz. rewrite Q1, Q2. replace (10 ^ 9 / 10 ^ 9) with 1 by (field; apply pow_nonzero; lra). rewrite log10_1. ring.
Qed.
Print Assumptions C111_decades.
Example C111_decades_met : decade (Office OPEN) = Some (324 / 10, 173 / 10, 20) /\ before_breakpoint (Office OPEN) (at_2d (10 ^ 9) 3 2 1).
Proof. split; [reflexivity | exact I]. Qed.

(** At the breakpoint of the urban scenarios the loss continues smoothly if and only if the height difference of the devices is the one the formula assumes. *)
Theorem C111_breakpoint : forall c h near far r p, (c, h, near, far, r) = (Micro, 10, 21, 95 / 10, 324 / 10) \/ (c, h, near, far, r) = (Macro, 25, 22, 9, 28) ->
  0 < fc p -> geometric p -> d2 p = breakpoint h p ->
  exists l, pathloss c LOS p = Ok l /\
    l - dB r near (d3 p) 20 (fc p) = far * (ln (d3 p ^ 2 / (d2 p ^ 2 + (h - urban_terminal p) ^ 2)) / ln 10) /\
    (l = dB r near (d3 p) 20 (fc p) <-> (base_height p - terminal_height p) ^ 2 = (h - urban_terminal p) ^ 2).
Proof.
  intros c h near far r p Hc F G E.
  assert (V : 1 < h /\ pathloss c LOS p = urban_los h r near far p /\ 40 - near = 2 * far /\ 0 < far).
  { destruct Hc as [Q|Q]; inversion Q; subst; split; try lra; (split; [reflexivity | lra]). }
  destruct V as (H1 & V & W & P). rewrite V, urban_los_ok by (try assumption; apply G).
  destruct Rlt_dec as [L|L]; [lra|]. clear L. eexists. split; [reflexivity|].
  pose proof (far_pos h p H1 F) as FP. destruct G as (G1 & G2 & G3 & G4).
  rewrite <- E in *. set (m := d2 p ^ 2 + (h - urban_terminal p) ^ 2) in *.
  change (ln (d3 p ^ 2 / m) / ln 10) with (log10 (d3 p ^ 2 / m)). change (dB r near (d3 p) 20 (fc p)) with (r + near * log10 (d3 p) + 20 * log10 (ghz p)).
  rewrite log10_div, log10_sq by (try apply pow_lt; assumption).
  assert (S : r + 40 * log10 (d3 p) + 20 * log10 (ghz p) - far * log10 m - (r + near * log10 (d3 p) + 20 * log10 (ghz p)) = far * (2 * log10 (d3 p) - log10 m)).
  { replace (far * (2 * log10 (d3 p) - log10 m)) with ((2 * far) * log10 (d3 p) - far * log10 m) by ring. rewrite <- W. ring. }
  split; [exact S|]. rewrite <- (log10_sq (d3 p)) in S by assumption.
  assert (K : d3 p ^ 2 = m <-> (base_height p - terminal_height p) ^ 2 = (h - urban_terminal p) ^ 2) by (unfold m; rewrite G4; split; intros; lra).
  rewrite <- K. split; intros Q.
  - assert (log10 (d3 p ^ 2) = log10 m) by nra.
    destruct (Rtotal_order (d3 p ^ 2) m) as [T|[T|T]]; [|exact T|].
    + apply log10_lt in T; [lra | apply pow_lt; assumption].
    + apply log10_lt in T; [lra | assumption].
  - rewrite Q in S. rewrite Rminus_diag_eq with (1 := eq_refl (log10 m)) in S. lra.
Qed.
Print Assumptions C111_breakpoint.
Example C111_breakpoint_met : let p := at_2d (10 ^ 9) 60 (3 / 2) (3 / 2) in geometric p /\ d2 p = breakpoint 10 p.
Proof.
  cbv zeta. split; [apply at_2d_geometric; lra|]. unfold breakpoint, urban_terminal, at_2d. cbn [fc d2 terminal_height].
  rewrite Rmin_right, Rmax_left by lra. field.
Qed.
(** Refuted: two hand-held devices lose less beyond the breakpoint (60 m at 1 GHz) than 10 cm before. *)
Theorem C111_breakpoint_refuted : exists p q a b, geometric p /\ geometric q /\ same_heights p q /\ d2 p < d2 q /\
  pathloss Micro LOS p = Ok a /\ pathloss Micro LOS q = Ok b /\ b < a.
Proof.
  exists (at_2d (10 ^ 9) (599 / 10) (3 / 2) (3 / 2)), (at_2d (10 ^ 9) 60 (3 / 2) (3 / 2)).
  assert (T : forall d, urban_terminal (at_2d (10 ^ 9) d (3 / 2) (3 / 2)) = 3 / 2).
  { intros d. unfold urban_terminal, at_2d. cbn [terminal_height]. rewrite Rmin_right, Rmax_left by lra. reflexivity. }
  assert (Bp : forall d, breakpoint 10 (at_2d (10 ^ 9) d (3 / 2) (3 / 2)) = 60).
  { intros d. unfold breakpoint. rewrite T. unfold at_2d. cbn [fc]. field. }
  assert (D : forall d, 0 < d -> d3 (at_2d (10 ^ 9) d (3 / 2) (3 / 2)) = d).
  { intros d Hd. unfold at_2d. cbn [d3]. replace (d ^ 2 + (3 / 2 - 3 / 2) ^ 2) with (d ^ 2) by ring. apply sqrt_pow2. lra. }
  do 2 eexists. split; [apply at_2d_geometric; lra|]. split; [apply at_2d_geometric; lra|]. split; [repeat split|]. split; [cbn [d2 at_2d]; lra|].
  cbn [pathloss]. unfold micro_loss.
  rewrite !urban_los_ok by (try lra; try (cbn [fc at_2d]; apply pow_lt; lra); rewrite D; lra).
  split; [reflexivity|]. split; [reflexivity|]. rewrite !Bp, !T, !D by lra.
  assert (G : ghz (at_2d (10 ^ 9) 60 (3 / 2) (3 / 2)) = ghz (at_2d (10 ^ 9) (599 / 10) (3 / 2) (3 / 2))) by reflexivity.
  rewrite <- G. set (g := log10 (ghz _)). unfold at_2d. cbn [d2].
  destruct (Rlt_dec (599 / 10) 60) as [A|A]; [|lra]. destruct (Rlt_dec 60 60) as [B|B]; [lra|].
  set (w := 60 ^ 2 + (10 - 3 / 2) ^ 2).
  assert (H1 : log10 w = log10 (60 ^ 2) + log10 (w / 60 ^ 2)) by (unfold w; rewrite <- log10_mult by lra; f_equal; field).
  assert (H2 : log10 60 = log10 (599 / 10) + log10 (60 / (599 / 10))) by (rewrite <- log10_mult by lra; f_equal; field).
  rewrite log10_sq in H1 by lra.
  assert (I1 : 1 / 100 / ln 10 <= log10 (w / 60 ^ 2)).
  { unfold log10, Rdiv. apply Rmult_le_compat_r; [left; apply Rinv_0_lt_compat, ln10_pos|].
    pose proof (exp_ineq1_le (- (1 * / 100))) as Q. rewrite <- (ln_exp (1 * / 100)).
    destruct (Rle_lt_or_eq_dec (exp (1 * / 100)) (w * / 60 ^ 2)) as [K|K].
    - rewrite exp_Ropp in Q. pose proof (exp_pos (1 * / 100)) as E0.
      assert (Q2 : (1 - 1 / 100) * exp (1 * / 100) <= 1).
      { apply Rmult_le_compat_r with (r := exp (1 * / 100)) in Q; [|lra]. rewrite Rinv_l in Q by lra. lra. }
      unfold w. lra.
    - left. apply ln_increasing; [apply exp_pos | exact K].
    - right. rewrite K. reflexivity. }
  assert (I2 : log10 (60 / (599 / 10)) <= 1 / 500 / ln 10).
  { unfold log10, Rdiv. apply Rmult_le_compat_r; [left; apply Rinv_0_lt_compat, ln10_pos|].
    pose proof (exp_ineq1_le (ln (60 * / (599 * / 10)))) as Q. rewrite exp_ln in Q by lra. lra. }
  assert (P : 0 < 1 / ln 10) by (apply Rdiv_lt_0_compat; [lra | apply ln10_pos]).
  assert (J1 : 1 / 100 / ln 10 = 1 / 100 * (1 / ln 10)) by (field; pose proof ln10_pos; lra).
  assert (J2 : 1 / 500 / ln 10 = 1 / 500 * (1 / ln 10)) by (field; pose proof ln10_pos; lra).
  rewrite J1 in I1. rewrite J2 in I2. set (e := 1 / ln 10) in *. lra.
Qed.
Print Assumptions C111_breakpoint_refuted.

(** Refuted: beyond the breakpoint of rural macrocells, more is lost than the standard says: the loss up to the breakpoint is taken at the
    distance of the devices. *)
Theorem C111_rural_refuted : forall p, 0 < fc p -> geometric p -> rural_breakpoint p < d2 p ->
  exists l, pathloss Rural LOS p = Ok l /\ l = standard_rural p + (rural_1 p (d3 p) - rural_1 p (rural_breakpoint p)) /\ standard_rural p < l.
Proof.
  intros p F G L. pose proof (geometric_le p G). pose proof (rural_breakpoint_pos p F) as B.
  eexists. split; [reflexivity|]. unfold rural_loss, rural_los. destruct Rle_dec as [Q|Q]; [lra|].
  unfold standard_rural. fold (log10 (d3 p / rural_breakpoint p)).
  pose proof (rural_1_lt p (rural_breakpoint p) (d3 p) F B ltac:(lra)). split; lra.
Qed.
Print Assumptions C111_rural_refuted.
Example C111_rural_refuted_met : let p := at_2d (10 ^ 9) 9000 30 2 in geometric p /\ rural_breakpoint p < d2 p.
Proof.
  cbv zeta. split; [apply at_2d_geometric; lra|]. unfold rural_breakpoint, rural_base, rural_terminal, at_2d. cbn [fc d2 base_height terminal_height].
  rewrite (Rmax_right 5 30), (Rmin_right 150 30), (Rmax_right 1 2), (Rmin_right 10 2) by lra.
  pose proof PI_4. replace (2 * PI * 30 * 2 * 10 ^ 9 / 10 ^ 8 / 3) with (PI * 400) by field. lra.
Qed.

(** Refuted: a terminal inside a building loses nothing at all, whatever the distance, while an unobstructed one at the same place does. *)
Theorem C111_indoor_refuted : forall c u carrier tx rx, c = Micro \/ c = Macro \/ c = Rural -> tx <> rx -> 10 ^ 9 <= carrier ->
  1 <= d3 (parameters carrier tx rx) ->
  link c (Some O2I) u carrier tx rx = Ok (O2I, 1) /\ exists g, link c (Some LOS) u carrier tx rx = Ok (LOS, g) /\ g < 1.
Proof.
  intros c u carrier tx rx Hc N F D.
  pose proof (geometric_parameters carrier tx rx N) as G.
  destruct (attenuates c (parameters carrier tx rx) F D G) as (l & El & Hl).
  assert (O : pathloss c O2I (parameters carrier tx rx) = Ok 0) by (destruct Hc as [->|[->| ->]]; reflexivity).
  unfold link. destruct Req_EM_T as [E|E]; [lra|]. rewrite O, El. cbn. split.
  - do 2 f_equal. replace (- 0 / 10) with 0 by field. apply Rpower_O. lra.
  - eexists. split; [reflexivity|]. apply power_lt1. exact Hl.
Qed.
Print Assumptions C111_indoor_refuted.
Example C111_indoor_refuted_met : mast <> phone /\ 10 ^ 9 <= 2 * 10 ^ 9 /\ 1 <= d3 (parameters (2 * 10 ^ 9) mast phone).
Proof. split; [exact mast_phone|]. split; [pose proof (pow_lt 10 9 ltac:(lra)); lra | apply C111_attenuates_met]. Qed.

(** When a line of sight is certain *)
Theorem C111_certain : forall p, geometric p ->
  (certain (Office MIXED) p <-> d2 p <= 12 / 10) /\ (certain (Office OPEN) p <-> d2 p <= 5) /\
  (certain Micro p <-> d3 p <= 18) /\ (certain Macro p <-> d3 p <= 18) /\ (certain Rural p <-> d2 p <= 10) /\ (forall h, certain (Factory HH h) p).
Proof.
  intros p G. split; [apply certain_office_mixed|]. split; [apply certain_office_open|].
  split; [apply certain_urban; auto|]. split; [apply certain_urban; auto|]. split; [apply certain_rural|]. intros h u Hu. reflexivity.
Qed.
(** Outside of factories, it is possible at any distance. *)
Theorem C111_possible : forall c p, (forall t h, c <> Factory t h) -> geometric p -> ~ never c p.
Proof.
  intros c p N G H. apply never_iff in H; [|intros h; apply N]. pose proof (possible c p N G). lra.
Qed.
(** Except in open offices, a draw that sees the other device also sees it from closer. *)
Theorem C111_nested : forall c u p q, c <> Office OPEN -> geometric p -> geometric q -> same_heights p q -> d2 p < d2 q -> 0 <= u < 1 ->
  decide c u q = LOS -> decide c u p = LOS.
Proof. exact decisions_nested. Qed.
(** Refuted for open offices: there is a draw with which the line of sight appears by moving from 49 m away to 49.1 m. *)
Theorem C111_open_office_refuted : exists u, 0 <= u < 1 /\ forall f b t,
  decide (Office OPEN) u (at_2d f 49 b t) = NLOS /\ decide (Office OPEN) u (at_2d f (491 / 10) b t) = LOS.
Proof.
  exists (539 / 1000). split; [lra|]. intros f b t. unfold decide, at_2d, probability. cbn [d2]. split.
  - destruct (Rle_dec 49 5); [lra|]. destruct (Rle_dec 49 49); [|lra]. pose proof open_office_step. destruct Rlt_dec; [lra | reflexivity].
  - destruct (Rle_dec (491 / 10) 5); [lra|]. destruct (Rle_dec (491 / 10) 49); [lra|].
    pose proof (exp_ineq1_le (- (491 / 10 - 49) / (2117 / 10))). destruct Rlt_dec; [reflexivity | lra].
Qed.
Print Assumptions C111_certain.
Print Assumptions C111_possible.
Print Assumptions C111_nested.
Print Assumptions C111_open_office_refuted.
Example C111_nested_met : let p := at_2d (10 ^ 9) 6 2 1 in let q := at_2d (10 ^ 9) 7 2 1 in
  geometric p /\ geometric q /\ same_heights p q /\ d2 p < d2 q /\ decide (Office MIXED) 0 q = LOS.
Proof.
  cbv zeta. split; [apply at_2d_geometric; lra|]. split; [apply at_2d_geometric; lra|]. split; [repeat split|]. split; [cbn [at_2d d2]; lra|].
  apply decide_los; [discriminate|]. apply possible; [discriminate | apply at_2d_geometric; lra].
Qed.

(** Refuted: in urban macrocells the line of sight is less probable than in the standard, for every link over more than 18 metres. *)
Theorem C111_macro_refuted : forall p, geometric p -> 0 < d2 p -> 18 < d3 p -> probability Macro p < standard_macro_probability (d2 p).
Proof. intros p G H L. cbn [probability]. apply standard_macro_lt; [exact H | apply geometric_le; exact G | exact L]. Qed.
(** Refuted: a terminal at the foot of a mast of 25 metres may lose its line of sight, which the standard excludes by using the horizontal distance. *)
Theorem C111_mast_refuted : forall f, exists p u, geometric p /\ d2 p = 0 /\ fc p = f /\ 0 <= u < 1 /\ decide Micro u p = NLOS /\ decide Macro u p = NLOS.
Proof.
  intros f. exists (mkParams f 23 0 25 2), (urban_probability 23).
  assert (P : 0 < urban_probability 23 < 1) by (split; [apply urban_pos | apply urban_lt1]; lra).
  split; [unfold geometric; cbn; lra|]. split; [reflexivity|]. split; [reflexivity|]. split; [lra|].
  unfold decide, probability. cbn [d3]. destruct Rlt_dec; [lra|]. split; reflexivity.
Qed.
Print Assumptions C111_macro_refuted.
Print Assumptions C111_mast_refuted.
Example C111_macro_refuted_met : geometric (at_2d (10 ^ 9) 100 25 2) /\ 0 < d2 (at_2d (10 ^ 9) 100 25 2) /\ 18 < d3 (at_2d (10 ^ 9) 100 25 2).
Proof.
  split; [apply at_2d_geometric; lra|]. split; [cbn [d2 at_2d]; lra|].
  pose proof (geometric_le _ (at_2d_geometric (10 ^ 9) 100 25 2 ltac:(lra) ltac:(lra))) as H. change (d2 (at_2d (10 ^ 9) 100 25 2)) with 100 in H. lra.
Qed.

(** In factories with elevated base stations, the line of sight is possible below the clutter ... *)
Theorem C111_factory : forall t h p, t = SH \/ t = DH -> terminal_height p < h -> terminal_height p < base_height p -> 0 <= d2 p ->
  ~ never (Factory t h) p /\ (certain (Factory t h) p <-> d2 p = 0).
Proof.
  intros t h p Ht L1 L2 D.
  assert (K : 0 < subspace t h p).
  { assert (N : forall x, 0 < x -> x < 1 -> 0 < - 1 / ln x) by (intros x X1 X2; pose proof (ln_lt0 x X1 X2);
      replace (- 1 / ln x) with (1 / - ln x) by (field; lra); apply Rdiv_lt_0_compat; lra).
    assert (M : forall x s, 0 < x -> x < 1 -> 0 < s ->
      0 < - s * (base_height p - terminal_height p) / (ln x * (h - terminal_height p))).
    { intros x s X1 X2 X3. pose proof (ln_lt0 x X1 X2).
      replace (- s * (base_height p - terminal_height p) / (ln x * (h - terminal_height p)))
        with (s * (base_height p - terminal_height p) * (- 1 / ln x) * / (h - terminal_height p)) by (field; lra).
      apply Rmult_lt_0_compat; [|apply Rinv_0_lt_compat; lra]. apply Rmult_lt_0_compat; [|apply N; assumption]. apply Rmult_lt_0_compat; lra. }
    unfold subspace, clutter. destruct Ht; subst; apply M; lra. }
  assert (NH : forall g, Factory t h <> Factory HH g) by (destruct Ht; subst; discriminate).
  assert (E : probability (Factory t h) p = exp (- d2 p / subspace t h p)) by (cbn [probability]; destruct Rlt_dec; [reflexivity | lra]).
  split.
  - rewrite never_iff by exact NH. rewrite E. pose proof (exp_gt0 (- d2 p / subspace t h p)). lra.
  - rewrite certain_iff by exact NH. rewrite E. split; intros H.
    + destruct D as [D|D]; [|lra]. exfalso. assert (exp (- d2 p / subspace t h p) < 1) by (apply exp_lt1, neg_div_lt; assumption). lra.
    + rewrite H. replace (- 0 / subspace t h p) with 0 by (field; lra). rewrite exp_0. lra.
Qed.
(** ... refuted above: devices that stick out of the clutter never see each other, and neither do devices of equal height, however close. *)
Theorem C111_factory_refuted : forall t h p, t = SH \/ t = DH -> terminal_height p <= base_height p ->
  h < terminal_height p \/ (h <> terminal_height p /\ base_height p = terminal_height p) -> never (Factory t h) p.
Proof.
  intros t h p Ht L C.
  assert (NH : forall g, Factory t h <> Factory HH g) by (destruct Ht; subst; discriminate).
  apply never_iff; [exact NH|]. cbn [probability].
  assert (M : forall x s, 0 < x -> x < 1 -> 0 < s -> - s * (base_height p - terminal_height p) / (ln x * (h - terminal_height p)) <= 0).
  { intros x s X1 X2 X3. pose proof (ln_lt0 x X1 X2). destruct C as [C|[C1 C2]].
    - assert (0 < ln x * (h - terminal_height p)) by nra.
      unfold Rdiv. assert (0 < / (ln x * (h - terminal_height p))) by (apply Rinv_0_lt_compat; assumption).
      assert (0 <= s * (base_height p - terminal_height p)) by (apply Rmult_le_pos; lra). nra.
    - rewrite C2. rewrite Rminus_diag_eq by reflexivity. unfold Rdiv. rewrite Rmult_0_r, Rmult_0_l. lra. }
  destruct Rlt_dec as [K|K]; [|lra]. exfalso. unfold subspace, clutter in K. destruct Ht; subst;
    [pose proof (M (1 - 2 / 10) 10 ltac:(lra) ltac:(lra) ltac:(lra)) | pose proof (M (1 - 6 / 10) 2 ltac:(lra) ltac:(lra) ltac:(lra))]; lra.
Qed.
Print Assumptions C111_factory.
Print Assumptions C111_factory_refuted.
Example C111_factory_met : let p := at_2d (10 ^ 9) 10 8 1 in terminal_height p < 3 /\ terminal_height p < base_height p /\
  (1 / 2 < terminal_height p).
Proof. cbn. lra. Qed.
