(** C104: parameters of multipath fading channels *)
From Coq Require Import List Arith ZArith Reals Lra Lia Bool Sorted Permutation.
From Coquelicot Require Import Complex Hierarchy Series.
From Verif Require Import Base BaseLemmas Cplx Cplx_Proofs Chan_Model Fad_Model Fad_Spec Fad_Proofs.
Import ListNotations.
Local Open Scope R_scope.

(** A profile is accepted exactly if it has a tap, its three lists agree in length and nothing is negative; anything else is a ValueError *)
Theorem C104_profiles_checked : forall ds ps ks n los u,
  let valid := (1 <= length ds)%nat /\ length ds = length ps /\ length ps = length ks /\ List.Forall (fun x => 0 <= x) ds /\ List.Forall (fun x => 0 <= x) ps /\ List.Forall (fun k => match k with None => True | Some k => 0 <= k end) ks in
  (valid -> exists c, make_fading ds ps ks n los u = Ok c) /\ (~ valid -> make_fading ds ps ks n los u = Raise ValueError).
Proof.
  intros ds ps ks n los u valid.
  assert (NEG : forall x, negative x = false <-> 0 <= x). { intro x. unfold negative. destruct (Rlt_dec x 0); split; intro; try lra; try discriminate; reflexivity. }
  assert (EX : forall {A} (f : A -> bool) (P : A -> Prop) l, (forall x, f x = false <-> P x) -> existsb f l = false <-> List.Forall P l).
  { intros A f P l HF. induction l as [|x t IH]; cbn [existsb]; [split; [constructor|reflexivity]|]. rewrite orb_false_iff, IH, HF. split; [intros [? ?]; constructor; assumption|intro H; inversion H; auto]. }
  pose proof (EX R negative (fun x => 0 <= x) ds NEG) as E1. pose proof (EX R negative (fun x => 0 <= x) ps NEG) as E2.
  pose proof (EX (option R) (fun k => match k with None => false | Some k => negative k end) (fun k => match k with None => True | Some k => 0 <= k end) ks ltac:(intros [k|]; [apply NEG|split; auto])) as E3.
  unfold make_fading. destruct (Nat.ltb_spec (length ds) 1) as [L|L]; [split; [intros (V & _); lia|reflexivity]|]. destruct (Nat.eqb_spec (length ds) (length ps)) as [Q1|Q1]; [|split; [intros (_ & V & _); contradiction|reflexivity]].
  destruct (Nat.eqb_spec (length ps) (length ks)) as [Q2|Q2]; [|split; [intros (_ & _ & V & _); contradiction|reflexivity]]. cbn [negb orb].
  destruct (existsb negative ds); [split; [intros (_ & _ & _ & V & _); apply E1 in V; discriminate|reflexivity]|].
  destruct (existsb negative ps); [split; [intros (_ & _ & _ & _ & V & _); apply E2 in V; discriminate|reflexivity]|].
  destruct (existsb _ ks); [split; [intros (_ & _ & _ & _ & _ & V); apply E3 in V; discriminate|reflexivity]|].
  split; [eauto|]. intro NV. exfalso. apply NV. unfold valid. rewrite <- E1, <- E2, <- E3. repeat split; auto.
Qed.
Print Assumptions C104_profiles_checked.
Example C104_profiles_met : make_fading [1; 0] [1; 2] [None; Some 0] 3 None 0 = Ok (Fading_ [Tap 0 2 (Some 0); Tap 1 1 None] 3 3 0) /\ make_fading [-1] [1] [None] 3 None 0 = Raise ValueError.
Proof.
  unfold make_fading, negative, sort_taps. cbn [length Nat.ltb Nat.leb Nat.eqb negb orb existsb zip3 fold_right insert delay_leb t_delay]. unfold delay_leb. cbn [t_delay].
  repeat match goal with |- context [Rlt_dec ?a ?b] => destruct (Rlt_dec a b); try lra | |- context [Rle_dec ?a ?b] => destruct (Rle_dec a b); try lra end. split; reflexivity.
Qed.

(** The taps of a channel are the configured ones in the order of their delays, and each sample has one path for each of them *)
Theorem C104_taps : forall ds ps ks n los u c, make_fading ds ps ks n los u = Ok c ->
  exists l, map t_delay l = ds /\ map t_power l = ps /\ map t_rice l = ks /\ Permutation l (c_taps c) /\ in_order (c_taps c) /\
  forall w, map p_delay (sample_paths c w) = map t_delay (c_taps c) /\ map power (sample_paths c w) = map t_power (c_taps c) /\
            List.Forall2 (fun p t => (los_gain p, nlos_gain p) = rice_gains (t_rice t) n /\ length (nlos p) = n) (sample_paths c w) (c_taps c).
Proof.
  intros ds ps ks n los u c H. destruct (make_fading_inv _ _ _ _ _ _ _ H) as (_ & L1 & L2 & ->). exists (zip3 ds ps ks). destruct (zip3_parts _ _ _ L1 L2) as (A & B & D).
  split; [exact A|]. split; [exact B|]. split; [exact D|]. split; [apply sort_perm|]. split; [apply sort_ordered|].
  intro w. split; [apply sampled_delays|]. split; [apply sampled_powers|]. unfold sample_paths. cbn [c_taps]. generalize (sort_taps (zip3 ds ps ks)) as l. intro l. generalize 0%nat.
  set (cc := Fading_ _ _ _ _). assert (CD : c_drawn cc = n) by reflexivity. clearbody cc. induction l as [|t l IH]; intro s; cbn [length seq combine map]; constructor; [|apply IH].
  cbn [fst snd]. unfold sample_path. rewrite CD. destruct (rice_gains (t_rice t) n) as [a b]. cbn [los_gain nlos_gain nlos]. split; [reflexivity|]. rewrite map_length, seq_length. reflexivity.
Qed.
Print Assumptions C104_taps.
(** Shown by [C104_profiles_met], an unsorted profile *)

(** REFUTED: a configured angle of the line of sight is used.  The property reads back, but no sample depends on it *)
Theorem C104_los_angle_refuted : forall ds ps ks n a b u u' w c c', make_fading ds ps ks n (Some a) u = Ok c -> make_fading ds ps ks n (Some b) u' = Ok c' ->
  c_los c = a /\ c_los c' = b /\ sample_paths c w = sample_paths c' w /\ forall x, c_los (set_los c x) = x /\ sample_paths (set_los c x) w = sample_paths c w.
Proof. intros ds ps ks n a b u u' w c c' H H'. apply make_fading_inv in H as (_ & _ & _ & ->). apply make_fading_inv in H' as (_ & _ & _ & ->). repeat split. Qed.
Print Assumptions C104_los_angle_refuted.
Example C104_los_angle_met : exists c c', make_fading [0] [1] [None] 3 (Some 0) 0 = Ok c /\ make_fading [0] [1] [None] 3 (Some 1) 0 = Ok c' /\ c_los c <> c_los c'.
Proof.
  do 2 eexists. unfold make_fading, negative. cbn [length Nat.ltb Nat.leb Nat.eqb negb orb existsb].
  repeat match goal with |- context [Rlt_dec ?a ?b] => destruct (Rlt_dec a b); try lra end. cbn [orb]. split; [reflexivity|]. split; [reflexivity|]. cbn. lra.
Qed.

(** REFUTED: setting the number of sinusoids changes the number of sinusoids of the paths.  Only the property changes *)
Theorem C104_sinusoids_refuted : forall ds ps ks n los u w c m, make_fading ds ps ks n los u = Ok c ->
  c_sinusoids (set_sinusoids c m) = m /\ sample_paths (set_sinusoids c m) w = sample_paths c w /\ List.Forall (fun p => length (nlos p) = n) (sample_paths (set_sinusoids c m) w).
Proof.
  intros ds ps ks n los u w c m H. split; [reflexivity|]. split; [reflexivity|]. change (sample_paths (set_sinusoids c m) w) with (sample_paths c w).
  destruct (C104_taps _ _ _ _ _ _ _ H) as (l & _ & _ & _ & _ & _ & S). destruct (S w) as (_ & _ & F). clear S. revert F. generalize (sample_paths c w) (c_taps c). intros pl tl F. induction F as [|p t ps' ts [_ L] F IH]; constructor; assumption.
Qed.
Print Assumptions C104_sinusoids_refuted.

(** Exponential profiles: taps one interval apart, decaying exponentially, as many as have at least a hundred thousandth of the first tap's power;
    continued without end, such a profile has exactly the configured root mean square delay *)
Theorem C104_exponential : forall T r n los u,
  (T <= 0 \/ r <= 0 -> make_exponential T r n los u = Raise ValueError) /\
  (0 < T -> 0 < r -> exists c a N, make_exponential T r n los u = Ok c /\ 0 < a /\
     c_taps c = map (fun k => Tap (INR k * T) (exp (- a * INR k)) (Some 0)) (seq 0 N) /\
     (forall k, (k < N)%nat <-> / 100000 <= exp (- a * INR k)) /\ has_spread (fun k => exp (- a * INR k)) T r).
Proof.
  intros T r n los u. split.
  - unfold make_exponential. intro H. destruct (Rle_dec T 0); [reflexivity|]. destruct (Rle_dec r 0); [reflexivity|]. lra.
  - intros HT Hr. destruct (alpha_spec T r HT Hr) as [A S2]. destruct (make_exponential T r n los u) as [c|e] eqn:E.
    + exists c, (alpha T r), (Z.to_nat (max_delay_in_samples (alpha T r) + 1)). split; [reflexivity|]. split; [exact A|]. destruct (exponential_made _ _ _ _ _ _ E) as (_ & _ & TT & _). split; [exact TT|]. split; [intro k; apply (truncation_bounds _ k A)|].
      destruct (geometric_sums (alpha T r) T A) as (G1 & G2 & G3). set (q := exp (- alpha T r)) in *. assert (Q : 0 < q < 1). { split; [apply exp_pos|]. unfold q. rewrite <- exp_0. apply exp_increasing. lra. }
      exists (/ (1 - q)), (q / (1 - q) * T). split; [apply Rinv_0_lt_compat; lra|]. split; [exact G1|]. split; [exact G2|]. rewrite S2. exact G3.
    + exfalso. revert E. unfold make_exponential. destruct (Rle_dec T 0); [lra|]. destruct (Rle_dec r 0); [lra|].
      assert (L : (1 <= length (exponential_taps T (alpha T r)))%nat). { unfold exponential_taps. rewrite map_length, seq_length. apply (truncation_bounds _ 0 A). cbn [INR]. rewrite Rmult_0_r, exp_0. unfold truncation. lra. }
      rewrite make_fading_taps; [discriminate|exact L|]. apply List.Forall_forall. intros t I. unfold exponential_taps in I. apply in_map_iff in I as (k & <- & _). cbn [t_delay t_power t_rice]. pose proof (pos_INR k). repeat split; [apply Rmult_le_pos; lra|left; apply exp_pos|lra].
Qed.
Print Assumptions C104_exponential.

(** REFUTED: the taps of the channel itself have the configured root mean square delay.  Theirs is always smaller *)
Theorem C104_exponential_spread_refuted : forall T r n los u c, make_exponential T r n los u = Ok c -> squared_spread (c_taps c) < r * r.
Proof. exact truncated_spread. Qed.
Print Assumptions C104_exponential_spread_refuted.
(** REFUTED: exponential profiles preserve power.  With more than one tap they amplify *)
Theorem C104_exponential_power_refuted : forall T r n los u c, make_exponential T r n los u = Ok c -> (2 <= length (c_taps c))%nat -> 1 < energy_scale c 1.
Proof.
  intros T r n los u c H L. destruct (exponential_made _ _ _ _ _ _ H) as (_ & _ & E & _). unfold energy_scale. rewrite (total_fold (map t_power (c_taps c))), E in *. unfold exponential_taps in *. rewrite map_length, seq_length in L.
  destruct (Z.to_nat (max_delay_in_samples (alpha T r) + 1)) as [|N]; [lia|]. rewrite map_map. cbn [seq map total t_power INR]. rewrite Rmult_0_r, exp_0.
  assert (0 < total (map (fun k => exp (- alpha T r * INR k)) (seq 1 N))); [|lra]. apply total_pos; [destruct N; [lia|discriminate]|]. apply List.Forall_forall. intros x I. apply in_map_iff in I as (k & <- & _). apply exp_pos.
Qed.
Print Assumptions C104_exponential_power_refuted.
Example C104_exponential_met : exists c, make_exponential 1 (2 / 3) 3 None 0 = Ok c /\ (2 <= length (c_taps c))%nat.
Proof.
  destruct (proj2 (C104_exponential 1 (2 / 3) 3 None 0) ltac:(lra) ltac:(lra)) as (c & a & N & E & A & T & K & _). exists c. split; [exact E|]. rewrite T, map_length, seq_length.
  apply K. destruct (exponential_made _ _ _ _ _ _ E) as (_ & _ & TT & _). assert (AA : exp (- alpha 1 (2 / 3)) = 1 / 4).
  { unfold alpha. replace (1 + 4 * (2 / 3 / 1 * (2 / 3 / 1))) with ((5 / 3) * (5 / 3)) by field. rewrite sqrt_square by lra. replace ((- 1 + 5 / 3) / (2 * (2 / 3 / 1))) with (1 / 2) by field.
    replace (- (- 2 * ln (1 / 2))) with (ln (1 / 2) + ln (1 / 2)) by ring. rewrite exp_plus, exp_ln by lra. field. }
  destruct (Nat.lt_ge_cases 1 N) as [L|L]; [apply K; exact L|]. exfalso.
  assert (L2 : length (exponential_taps 1 (alpha 1 (2 / 3))) = length (map (fun k : nat => Tap (INR k * 1) (exp (- a * INR k)) (Some 0)) (seq 0 N))) by (rewrite <- T, <- TT; reflexivity).
  unfold exponential_taps in L2. rewrite !map_length, !seq_length in L2. destruct (alpha_spec 1 (2 / 3) ltac:(lra) ltac:(lra)) as [A2 _].
  assert (X : (1 < Z.to_nat (max_delay_in_samples (alpha 1 (2 / 3)) + 1))%nat). { apply (truncation_bounds _ 1 A2). cbn [INR]. rewrite Rmult_1_r, AA. unfold truncation. lra. } lia.
Qed.

(** Tabulated profiles: powers are positive, add up to one and differ by the tabulated decibels *)
Theorem C104_tables : forall db, db <> [] -> total (normalised db) = 1 /\ List.Forall (fun p => 0 < p) (normalised db) /\
  forall i j a b, nth_error db i = Some a -> nth_error db j = Some b -> exists x y, nth_error (normalised db) i = Some x /\ nth_error (normalised db) j = Some y /\ 10 * (ln (x / y) / ln 10) = a - b.
Proof. intros db N. destruct (normalised_sum db N) as [A B]. split; [exact A|]. split; [exact B|]. apply normalised_ratio. Qed.
Print Assumptions C104_tables.
(** Their delays scale with the configured root mean square delay, which must not be negative; they preserve power *)
Theorem C104_tdl : forall ds db ks r n los u, ds <> [] -> length ds = length db -> length db = length ks -> List.Forall (fun x => 0 <= x) ds -> List.Forall (fun k => match k with None => True | Some k => 0 <= k end) ks ->
  (r < 0 -> make_tdl ds db ks r n los u = Raise ValueError) /\
  (0 <= r -> exists c, make_tdl ds db ks r n los u = Ok c /\ Permutation (map t_delay (c_taps c)) (map (Rmult r) ds) /\ energy_scale c 1 = 1).
Proof.
  intros ds db ks r n los u N L1 L2 FD FK. unfold make_tdl. split; intro R0; destruct (Rlt_dec r 0); try lra; [reflexivity|].
  assert (LN : length (normalised db) = length db) by (unfold normalised; cbv zeta; rewrite !map_length; reflexivity).
  assert (ND : db <> []) by (intros ->; destruct ds; [contradiction|discriminate]). destruct (normalised_sum db ND) as [S P].
  destruct (C104_profiles_checked (map (fun d => r * d) ds) (normalised db) ks n los u) as [V _].
  destruct V as [c E]. { rewrite map_length, LN. split; [destruct ds; [contradiction|cbn; lia]|]. split; [exact L1|]. split; [exact L2|]. split; [|split; [|exact FK]].
    - apply List.Forall_forall. intros x I. apply in_map_iff in I as (d & <- & I). rewrite List.Forall_forall in FD. apply Rmult_le_pos; [exact R0|apply FD; exact I].
    - eapply List.Forall_impl; [|exact P]. intros x X. cbv beta in X. lra. }
  exists c. split; [exact E|]. destruct (C104_taps _ _ _ _ _ _ _ E) as (l & A & B & _ & PM & _). split.
  - rewrite <- (Permutation_map t_delay PM), A. reflexivity.
  - unfold energy_scale. rewrite (total_fold (map t_power (c_taps c))), <- (total_perm _ _ (Permutation_map t_power PM)), B, S. ring.
Qed.
Print Assumptions C104_tdl.
Example C104_tdl_met : tdl_d_delays <> [] /\ length tdl_d_delays = length tdl_d_power_db /\ length tdl_d_power_db = length tdl_d_rice_factors /\ List.Forall (fun x => 0 <= x) tdl_d_delays /\ List.Forall (fun k => match k with None => True | Some k => 0 <= k end) tdl_d_rice_factors.
Proof. split; [discriminate|]. split; [reflexivity|]. split; [reflexivity|]. split; unfold tdl_d_delays, tdl_d_rice_factors; cbn [repeat]; repeat (apply List.Forall_cons; [lra|]); apply List.Forall_nil. Qed.
(** REFUTED: the line of sight dominates profile D, whose table gives it 13.3 dB over the first path's reflections, -0.2 dB of about one.
    It has less than half of the power: the decibels are a factor, and the power of the reflections is that of the whole path *)
Theorem C104_line_of_sight_refuted : forall r n los u c w, make_tdl tdl_d_delays tdl_d_power_db tdl_d_rice_factors r n los u = Ok c -> path_power (sample_paths c w) = 1 /\ specular_power (sample_paths c w) < 1 / 2.
Proof. exact tdl_d_specular. Qed.
Print Assumptions C104_line_of_sight_refuted.

(** Standard correlations are covariances of unit power, for one, two and four antennas; others are a RuntimeError *)
Theorem C104_standard_covariances : forall f n, 0 <= f <= 1 ->
  ((n = 1 \/ n = 2 \/ n = 4)%nat -> exists m, standard_covariance f n = Ok m /\ covariance n m /\ (forall i, (i < n)%nat -> m i i = RtoC 1) /\ ((2 <= n)%nat -> m 0%nat (n - 1)%nat = RtoC f)) /\
  (~ (n = 1 \/ n = 2 \/ n = 4)%nat -> standard_covariance f n = Raise RuntimeError).
Proof.
  intros f n F. split.
  - intro H. assert (E : exists m, standard_covariance f n = Ok m /\ ((2 <= n)%nat -> m 0%nat (n - 1)%nat = RtoC f)) by (destruct H as [->|[->| ->]]; eexists; (split; [reflexivity|intro; try lia; reflexivity])).
    destruct E as (m & E & L). exists m. split; [exact E|]. destruct (standard_is_covariance f n m F E) as [A B]. auto.
  - intro H. destruct n as [|[|[|[|[|n]]]]]; try reflexivity; exfalso; apply H; lia.
Qed.
Print Assumptions C104_standard_covariances.
Theorem C104_custom_covariances : forall rows m n, ((n <= rows)%nat -> custom_covariance rows m n = Ok m) /\ ((rows < n)%nat -> custom_covariance rows m n = Raise ValueError).
Proof. intros rows m n. unfold custom_covariance. destruct (Nat.ltb_spec rows n); split; intro; try lia; reflexivity. Qed.
Print Assumptions C104_custom_covariances.

(** REFUTED: antennas are correlated as configured.  Uncorrelated draws of unit power at up to ten receiving antennas are multiplied by the covariance
    instead of its root, so their correlation is the square of the configured matrix *)
Theorem C104_correlation_refuted : forall n m one draws (u : nat -> nat -> nat -> R), (1 <= n <= 10)%nat -> hermitian n m -> one 0%nat 0%nat = RtoC 1 ->
  uncorrelated draws n (fun w i => cis (2 * PI * u w i 0%nat)) ->
  exists h, (forall w, spatial_response (u w) (Some (fun _ => Ok m, fun _ => Ok one)) (Counts n n n) (Counts 1 1 1) = Ok (n, 1%nat, h w)) /\
    forall i j, (i < n)%nat -> (j < n)%nat -> correlation_of draws (fun w k => h w k 0%nat) i j = csum (fun k => m i k * m k j)%C n.
Proof.
  intros n m one draws u N H O U.
  exists (fun w i j => csum (fun l => csum (fun k => m i k * cis (2 * PI * u w k l)) n * one l j)%C 1). split.
  - intro w. unfold spatial_response. cbn [all_antennas receiving transmitting bind]. rewrite (Nat.min_r 10 n) by lia. rewrite (Nat.min_r 10 1) by lia. rewrite !Nat.eqb_refl. reflexivity.
  - intros i j Hi Hj. transitivity (correlation_of draws (fun w i => csum (fun k => m i k * cis (2 * PI * u w k 0%nat))%C n) i j).
    + unfold correlation_of. f_equal. apply csum_ext. intros w _. cbn [csum]. rewrite O. apply injective_projections; cbn; ring.
    + rewrite (correlated_response n m (fun w i => cis (2 * PI * u w i 0%nat)) draws i j U Hi Hj). apply csum_ext. intros k Hk. rewrite (H k j Hk Hj). reflexivity.
Qed.
Print Assumptions C104_correlation_refuted.
Example C104_correlation_met : exists m one u, standard_covariance 0.9 2 = Ok m /\ standard_covariance 0.9 1 = Ok one /\ one 0%nat 0%nat = RtoC 1 /\ hermitian 2 m /\
  uncorrelated 2 2 (fun w i => cis (2 * PI * u w i 0%nat)) /\ csum (fun k => m 0%nat k * m k 1%nat)%C 2 = RtoC 1.8 /\ csum (fun k => m 0%nat k * m k 0%nat)%C 2 = RtoC 1.81.
Proof.
  exists (fun i j => if Nat.eqb i j then RtoC 1 else RtoC 0.9), (fun _ _ => RtoC 1), (fun (w i _ : nat) => INR (w * i) / 2). split; [reflexivity|]. split; [reflexivity|]. split; [reflexivity|].
  assert (C0 : forall i, cis (2 * PI * (INR (0 * i) / 2)) = RtoC 1). { intro i. replace (2 * PI * (INR (0 * i) / 2)) with 0 by (cbn; field). unfold cis. rewrite cos_0, sin_0. reflexivity. }
  assert (C00 : cis (2 * PI * (INR (1 * 0) / 2)) = RtoC 1). { replace (2 * PI * (INR (1 * 0) / 2)) with 0 by (cbn; field). unfold cis. rewrite cos_0, sin_0. reflexivity. }
  assert (C1 : cis (2 * PI * (INR (1 * 1) / 2)) = RtoC (-1)). { replace (2 * PI * (INR (1 * 1) / 2)) with PI by (cbn; field). unfold cis. rewrite cos_PI, sin_PI. reflexivity. }
  split; [intros [|[|i]] [|[|j]] Hi Hj; try lia; cbn [Nat.eqb]; apply injective_projections; cbn; ring|]. split.
  - split; [lia|]. intros [|[|i]] [|[|j]] Hi Hj; try lia; cbn [csum Nat.eqb]; rewrite !C0, ?C00, ?C1; apply injective_projections; cbn; ring.
  - split; cbn [csum Nat.eqb]; apply injective_projections; cbn; lra.
Qed.

(** REFUTED: channels model all antennas of a link.  Responses have at most ten antennas on each side; with a correlation, larger arrays and arrays
    some of whose antennas only transmit or only receive are a ValueError *)
Theorem C104_antennas_refuted : forall u rx tx,
  (exists h, spatial_response u None rx tx = Ok (Nat.min 10 (all_antennas rx), Nat.min 10 (all_antennas tx), h)) /\
  forall r t mr mt, r (receiving rx) = Ok mr -> t (transmitting tx) = Ok mt ->
    (receiving rx <> Nat.min 10 (all_antennas rx) \/ transmitting tx <> Nat.min 10 (all_antennas tx) -> spatial_response u (Some (r, t)) rx tx = Raise ValueError) /\
    (receiving rx = Nat.min 10 (all_antennas rx) -> transmitting tx = Nat.min 10 (all_antennas tx) -> exists h, spatial_response u (Some (r, t)) rx tx = Ok (receiving rx, transmitting tx, h)).
Proof.
  intros u rx tx. split; [eexists; reflexivity|]. intros r t mr mt Hr Ht. unfold spatial_response. rewrite Hr, Ht. cbn [bind].
  destruct (Nat.eqb_spec (receiving rx) (Nat.min 10 (all_antennas rx))) as [E1|E1]; destruct (Nat.eqb_spec (transmitting tx) (Nat.min 10 (all_antennas tx))) as [E2|E2]; cbn [negb orb]; (split; [intro; try reflexivity; tauto|intros ? ?; try contradiction]).
  rewrite E1, E2. eexists. reflexivity.
Qed.
Print Assumptions C104_antennas_refuted.
Example C104_antennas_met : (exists m, standard_covariance 0.3 2 = Ok m) /\ receiving (Counts 4 2 2) <> Nat.min 10 (all_antennas (Counts 4 2 2)) /\ Nat.min 10 (all_antennas (Counts 16 16 16)) = 10%nat.
Proof. split; [eexists; reflexivity|]. cbn. split; [lia|reflexivity]. Qed.
