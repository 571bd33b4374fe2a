(** Properties of traced paths and Quadriga channels *)
From Coq Require Import List Reals ZArith Bool Arith Lia Lra.
From Coquelicot Require Import Complex.
From Verif Require Import Base BaseLemmas Cplx Cplx_Proofs Chan_Model Chan_Spec Chan_Proofs Trc_Model Trc_Spec Trc_Proofs.
Import ListNotations.
Open Scope R_scope.

(** Two valid paths, half a sample and two samples late, and an invalid one *)
Definition street : traced := mkTraced 4 10 1 1 1 [Traced (/ 20) (fun _ => RtoC 1); Traced (-1) (fun _ => RtoC 7); Traced (/ 5) (fun _ => RtoC 2)].
Lemma street_reachable : reachable street.
Proof. split; [cbn; lra|]. split; [intros p [<-|[<-|[<-|[]]]]; cbn [tau]; lra|]. exists (Traced (/ 20) (fun _ => RtoC 1)). split; [left; reflexivity|cbn [tau]; lra]. Qed.
(** A receiver of traced paths receives on all antennas the sum of all streams, late by the whole samples within the delay of each valid path *)
Theorem C130_traced_propagation : forall c b, reachable c -> exists y, traced_propagate c b = Ok y /\ streams y = t_rx c /\
  samples y = (samples b + Z.to_nat (ceil_of (max_delay c * t_bandwidth c)))%nat /\ offset y = int_of (INR (offset b) * rate_ratio c) /\
  forall r j, x y r j = received (traced_taps c) b r j.
Proof. apply traced_propagated. Qed.
Print Assumptions C130_traced_propagation.
Example C130_traced_propagation_met : reachable street /\ max_delay street = / 5.
Proof.
  split; [apply street_reachable|]. unfold max_delay, street, largest. cbn [t_paths map tau fold_left]. rewrite (Rmax_left (/ 20) (-1)) by lra. apply Rmax_right. lra.
Qed.
(** Applying the channel state receives the same, without the paths too late for the requested number of taps *)
Theorem C130_traced_state : forall c n m b, reachable c -> streams b = t_tx c -> (samples b <= n)%nat ->
  exists s y, traced_state c n m = Ok s /\ csi_propagate s b = Ok y /\ streams y = t_rx c /\
  (forall r j, (r < t_rx c)%nat -> x y r j = received (filter (fun p => Nat.ltb (td p) m) (traced_taps c)) b r j) /\
  (max_delay c * t_bandwidth c < INR m -> exists z, traced_propagate c b = Ok z /\ same_samples y z).
Proof.
  intros c n m b R Hb Hn. destruct (traced_state_applied c n m b R Hb Hn) as (s & y & Es & _ & Ey & Sy & Ny & Xy). exists s, y. split; [exact Es|]. split; [exact Ey|]. split; [exact Sy|]. split; [exact Xy|]. intro Hm.
  destruct (traced_propagated c b R) as (z & Ez & Sz & Nz & _ & Xz). exists z. split; [exact Ez|]. pose proof (reachable_ceil c R) as HC. pose proof (ceil_bounds (max_delay c * t_bandwidth c)) as B.
  assert (L : (ceil_of (max_delay c * t_bandwidth c) <= Z.of_nat m)%Z). { assert (Q : IZR (ceil_of (max_delay c * t_bandwidth c)) < IZR (Z.of_nat m + 1)) by (rewrite plus_IZR, <- INR_IZR_INZ; lra). apply lt_IZR in Q. lia. }
  split; [congruence|]. split; [rewrite Ny, Nz; f_equal; lia|]. intros r j Hr _. rewrite Xy by lia. rewrite Xz. f_equal.
  assert (A : forall q, In q (traced_taps c) -> Nat.ltb (td q) m = true).
  { intros q Hq. unfold traced_taps in Hq. apply in_map_iff in Hq. destruct Hq as (p & <- & Hp). apply filter_In in Hp. destruct Hp as [Hp Ha]. cbn [td]. apply Nat.ltb_lt. fold (int_of (tau p * t_bandwidth c)). destruct R as (Hw & _). fold (alive p) in Ha. apply alive_spec in Ha.
    assert (T : tau p * t_bandwidth c <= max_delay c * t_bandwidth c) by (apply Rmult_le_compat_r; [lra|]; apply largest_ge; apply in_map; exact Hp). assert (T0 : 0 <= tau p * t_bandwidth c) by (apply Rmult_le_pos; lra).
    unfold int_of. pose proof (floor_bounds (tau p * t_bandwidth c)) as F. assert (0 <= Int_part (tau p * t_bandwidth c))%Z. { apply Z.lt_succ_r. unfold Z.succ. apply lt_IZR. rewrite plus_IZR. lra. }
    assert (G : IZR (Int_part (tau p * t_bandwidth c)) < IZR (Z.of_nat m)) by (rewrite <- INR_IZR_INZ; lra). apply lt_IZR in G. lia. }
  clear -A. induction (traced_taps c) as [|q l IH]; [reflexivity|]. cbn [filter]. rewrite (A q (or_introl eq_refl)). f_equal. apply IH. intros p Hp. apply A. right. exact Hp.
Qed.
Print Assumptions C130_traced_state.
Example C130_traced_state_met : reachable street /\ max_delay street * t_bandwidth street < INR 3.
Proof. split; [apply street_reachable|]. rewrite (proj2 C130_traced_propagation_met). cbn [t_bandwidth street INR]. lra. Qed.
(** States of traced paths have one tap more than requested if the last path is late enough *)
Theorem C130_traced_taps_refuted : forall c n m, reachable c -> INR m <= max_delay c * t_bandwidth c -> exists s, traced_state c n m = Ok s /\ ntaps s = S m.
Proof.
  intros c n m R Hm. destruct (traced_state_ok c n m R) as (g & E & _). eexists. split; [exact E|]. cbn [ntaps impulse_csi]. f_equal. pose proof (ceil_bounds (max_delay c * t_bandwidth c)) as B.
  assert (L : (Z.of_nat m <= ceil_of (max_delay c * t_bandwidth c))%Z). { apply le_IZR. rewrite <- INR_IZR_INZ. lra. } lia.
Qed.
Print Assumptions C130_traced_taps_refuted.
Example C130_traced_taps_refuted_met : reachable street /\ INR 2 <= max_delay street * t_bandwidth street.
Proof. split; [apply street_reachable|]. rewrite (proj2 C130_traced_propagation_met). cbn [t_bandwidth street INR]. lra. Qed.
(** Without any path nothing is received; but if all paths are invalid the state raises, and signals lose samples or cannot be propagated *)
Theorem C130_no_paths : forall c b n m, 
  (t_paths c = [] -> (exists y, traced_propagate c b = Ok y /\ samples y = int_of (INR (samples b) * rate_ratio c) /\ forall r j, x y r j = RtoC 0) /\
     exists s, traced_state c n m = Ok s /\ ntaps s = 1%nat /\ forall r t i k, h s r t i k = RtoC 0) /\
  (t_paths c <> [] -> (forall p, In p (t_paths c) -> tau p = -1) -> 2 <= t_bandwidth c -> traced_state c n m = Raise ValueError /\
     ((samples b < int_of (t_bandwidth c))%nat -> traced_propagate c b = Raise ValueError) /\
     ((int_of (t_bandwidth c) <= samples b)%nat -> exists y, traced_propagate c b = Ok y /\ samples y = (samples b - int_of (t_bandwidth c))%nat /\ forall r j, x y r j = RtoC 0)).
Proof.
  intros c b n m. split.
  - intro E. split.
    + unfold traced_propagate. rewrite E. eexists. split; [reflexivity|]. split; [reflexivity|]. intros; reflexivity.
    + unfold traced_state, max_delay. rewrite E. cbn [map largest]. assert (Z0 : ceil_of (0 * t_bandwidth c) = 0%Z). { rewrite Rmult_0_l. pose proof (ceil_bounds 0) as [A B]. assert (A' : IZR (ceil_of 0) < IZR 1) by lra. apply lt_IZR in A'. apply le_IZR in B. lia. } rewrite Z0.
      replace (Z.min (Z.of_nat m) 0) with 0%Z by lia. change (1 + 0 <? 0)%Z with false. change (Z.to_nat (1 + 0)) with 1%nat. cbn [fold_left bind]. eexists. split; [reflexivity|]. split; [reflexivity|]. intros. cbn [h impulse_csi]. ring.
  - intros NE All Hw. assert (MD : max_delay c = -1). { unfold max_delay. assert (I : In (largest (map tau (t_paths c))) (map tau (t_paths c))) by (apply largest_in; intro Q; apply map_eq_nil in Q; contradiction). apply in_map_iff in I. destruct I as (p & Ep & Hp). rewrite <- Ep. apply All. exact Hp. }
    assert (CE : ceil_of (max_delay c * t_bandwidth c) = (- Z.of_nat (int_of (t_bandwidth c)))%Z).
    { rewrite MD. unfold ceil_of, int_of. replace (- (-1 * t_bandwidth c)) with (t_bandwidth c) by ring. pose proof (floor_bounds (t_bandwidth c)). assert (0 <= Int_part (t_bandwidth c))%Z. { apply Z.lt_succ_r. unfold Z.succ. apply lt_IZR. rewrite plus_IZR. lra. } rewrite Z2Nat.id by assumption. reflexivity. }
    assert (I2 : (2 <= int_of (t_bandwidth c))%nat). { unfold int_of. pose proof (floor_bounds (t_bandwidth c)) as F. assert (IZR 1 < IZR (Int_part (t_bandwidth c))) by lra. apply lt_IZR in H. lia. }
    split; [|split].
    + unfold traced_state. rewrite CE. destruct (Z.ltb_spec (1 + Z.min (Z.of_nat m) (- Z.of_nat (int_of (t_bandwidth c)))) 0); [reflexivity|lia].
    + intro Hs. unfold traced_propagate. destruct (t_paths c) as [|p0 l0] eqn:EP; [contradiction|]. rewrite CE. destruct (Z.ltb_spec (Z.of_nat (samples b) + - Z.of_nat (int_of (t_bandwidth c))) 0); [reflexivity|lia].
    + intro Hs. unfold traced_propagate. destruct (t_paths c) as [|p0 l0] eqn:EP; [contradiction|]. rewrite CE. destruct (Z.ltb_spec (Z.of_nat (samples b) + - Z.of_nat (int_of (t_bandwidth c))) 0); [lia|].
      match goal with |- context [fold_left ?st ?l ?a] => set (stp := st) end.
      assert (K : forall l a, (forall p, In p l -> tau p = -1) -> fold_left stp l (Ok a) = Ok a). { induction l as [|p l IH]; intros a Hl; [reflexivity|]. cbn [fold_left]. unfold stp at 2. cbn [bind]. destruct (Req_EM_T (tau p) (-1)) as [_|N]; [|exfalso; apply N; apply Hl; left; reflexivity]. apply IH. intros q Hq. apply Hl. right. exact Hq. }
      rewrite (K _ _ All). cbn [bind]. eexists. split; [reflexivity|]. cbn [samples x]. split; [lia|]. intros. ring.
Qed.
Print Assumptions C130_no_paths.
Example C130_no_paths_met : traced_state (mkTraced 1 10 1 1 1 [Traced (-1) (fun _ => RtoC 0)]) 5 5 = Raise ValueError.
Proof.
  destruct (C130_no_paths (mkTraced 1 10 1 1 1 [Traced (-1) (fun _ => RtoC 0)]) (Blk 1 4 0 (fun _ _ => RtoC 1)) 5 5) as [_ H]. apply H; [discriminate|intros p [<-|[]]; reflexivity|cbn; lra].
Qed.
(** The scale of the expected energy of traced paths does not depend on the gain, but what is received does *)
Theorem C130_traced_energy_refuted : forall g bandwidth rx ratio tx paths times, traced_energy_scale (mkTraced g bandwidth rx ratio tx paths) times = traced_energy_scale (mkTraced 1 bandwidth rx ratio tx paths) times /\
  forall b r j, 0 <= g -> received (traced_taps (mkTraced g bandwidth rx ratio tx paths)) b r j = (RtoC (sqrt g) * received (traced_taps (mkTraced 1 bandwidth rx ratio tx paths)) b r j)%C.
Proof.
  intros g bandwidth rx ratio tx paths times. split; [reflexivity|]. intros b r j Hg. unfold received, traced_taps. cbn [t_paths t_bandwidth t_gain]. rewrite !total_map, <- total_scal. apply total_ext. intros p _. cbn [td weight]. rewrite <- csum_scal. apply csum_ext. intros t _. rewrite sqrt_1.
  destruct (_ && _)%bool; ring.
Qed.
Print Assumptions C130_traced_energy_refuted.
Example C130_traced_energy_refuted_met : received (traced_taps street) (Blk 1 1 0 (fun _ _ => RtoC 1)) 0 0 = RtoC 2 /\ traced_energy_scale street 1 = 10.
Proof.
  split.
  - unfold street, traced_taps. cbn [t_paths t_bandwidth t_gain filter tau]. destruct (Rle_dec 0 (/ 20)); [|exfalso; apply n; lra]. destruct (Rle_dec 0 (-1)); [lra|]. destruct (Rle_dec 0 (/ 5)) as [|q]; [|exfalso; apply q; lra]. cbn [map tau coefficient].
    assert (F1 : Z.to_nat (Int_part (/ 20 * 10)) = 0%nat). { pose proof (floor_bounds (/ 20 * 10)) as [A B]. assert (IZR (Int_part (/ 20 * 10)) < IZR 1) by lra. assert (IZR (-1) < IZR (Int_part (/ 20 * 10))) by lra. apply lt_IZR in H. apply lt_IZR in H0. lia. }
    assert (F2 : Z.to_nat (Int_part (/ 5 * 10)) = 2%nat). { pose proof (floor_bounds (/ 5 * 10)) as [A B]. assert (IZR (Int_part (/ 5 * 10)) < IZR 3) by lra. assert (IZR 1 < IZR (Int_part (/ 5 * 10))) by lra. apply lt_IZR in H. apply lt_IZR in H0. lia. }
    unfold received. cbn [total td weight samples streams x]. rewrite F1, F2. cbn [Nat.leb Nat.ltb Nat.add Nat.sub andb csum]. assert (S4 : sqrt 4 = 2) by (replace 4 with (2 * 2) by ring; apply sqrt_square; lra). rewrite S4. ring.
  - unfold traced_energy_scale, street. cbn [t_paths fold_right coefficient csum]. transitivity (Cmod (RtoC 10)); [|rewrite Cmod_R; apply Rabs_pos_eq; lra]. f_equal. apply C_ext; cbn; ring.
Qed.

(** Two paths between two single antennas *)
Definition town : quad := mkQuad 4 10 1 1 1 false [QuadPath 0 (fun _ _ => RtoC 1); QuadPath (/ 5) (fun _ _ => RtoC 3)].
(** Over Quadriga channels all antennas receive the weighted streams, late by the delays rounded to samples, if transmitter and receiver have the same number of receiving antennas; a single receiving antenna is copied to as many antennas as the transmitter receives with, and otherwise nothing is received *)
Theorem C130_quadriga_propagation : forall c b, q_paths c <> [] -> (q_shared c = true \/ q_rx c * q_tx c = 1)%nat -> streams b = q_tx c ->
  (q_rx c = q_back c -> exists y, quad_propagate c b = Ok y /\ streams y = q_rx c /\ samples y = (samples b + quad_max c)%nat /\ offset y = offset b /\ forall r j, (r < q_rx c)%nat -> x y r j = received (quad_taps c) b r j) /\
  (q_rx c = 1%nat -> exists y, quad_propagate c b = Ok y /\ streams y = q_back c /\ forall r j, x y r j = received (quad_taps c) b 0 j) /\
  (q_rx c <> q_back c -> q_rx c <> 1%nat -> quad_propagate c b = Raise ValueError).
Proof.
  intros c b HP HS Hb. assert (SD : single_delay c = true). { unfold single_delay. destruct HS as [->|H]; [reflexivity|]. rewrite (proj2 (Nat.eqb_eq _ _) H). apply orb_true_r. } split; [|split].
  - intro HR. destruct (quad_propagated c b HP SD Hb (or_introl HR)) as (y & Ey & Sy & Ny & Oy & Xy). exists y. split; [exact Ey|]. split; [congruence|]. split; [exact Ny|]. split; [exact Oy|]. intros r j Hr. rewrite Xy. destruct (Nat.eqb_spec (q_rx c) 1) as [E|E]; [|reflexivity]. f_equal. lia.
  - intro HR. destruct (quad_propagated c b HP SD Hb (or_intror HR)) as (y & Ey & Sy & _ & _ & Xy). exists y. split; [exact Ey|]. split; [exact Sy|]. intros r j. rewrite Xy, HR. reflexivity.
  - intros H1 H2. unfold quad_propagate. destruct (q_paths c); [contradiction|]. rewrite SD. cbn [negb]. rewrite (proj2 (Nat.eqb_eq _ _) Hb). cbn [negb]. rewrite (proj2 (Nat.eqb_neq _ _) H1), (proj2 (Nat.eqb_neq _ _) H2). reflexivity.
Qed.
Print Assumptions C130_quadriga_propagation.
Example C130_quadriga_propagation_met : q_paths town <> [] /\ (q_rx town * q_tx town = 1)%nat /\ q_rx town = q_back town.
Proof. repeat split; discriminate. Qed.
(** Between single antennas the state of a Quadriga channel receives the same if enough taps are requested, and raises otherwise *)
Theorem C130_quadriga_state : forall c n m b, 0 < q_bandwidth c -> q_paths c <> [] -> q_rx c = 1%nat -> q_tx c = 1%nat -> q_back c = 1%nat -> streams b = 1%nat -> (samples b <= n)%nat ->
  ((quad_max c < m)%nat -> exists s y z, quad_state c n m = Ok s /\ csi_propagate s b = Ok y /\ quad_propagate c b = Ok z /\ same_samples y z) /\
  ((m <= quad_max c)%nat -> quad_state c n m = Raise IndexError).
Proof.
  intros c n m b Hw HP H1 H2 H3 Hb Hn. split.
  - intro Hm. destruct (quad_state_ok c n m Hw HP H1 H2 Hm) as (g & E & Hg).
    destruct (paths_received (q_paths c) (quad_delay c) (fun p _ _ _ => (RtoC (sqrt (q_gain c)) * q_coefficients p 0 0)%C) (fun _ => true) 1 1 n (quad_max c) g b Hb Hn) as (y & Ey & Sy & Ny & Xy).
    + intros p Hp _. pose proof (quad_in_time c p Hw Hp). lia.
    + intros. apply Hg.
    + destruct (quad_propagated c b HP) as (z & Ez & Sz & Nz & _ & Xz); [unfold single_delay; rewrite H1, H2; apply orb_true_r|congruence|right; exact H1|].
      exists (impulse_csi 1 1 n (S (quad_max c)) g), y, z. split; [exact E|]. split; [exact Ey|]. split; [exact Ez|]. split; [congruence|]. split; [congruence|]. intros r j Hr _. assert (r = 0%nat) by lia. subst r. rewrite Xy by lia. rewrite Xz, H1, filter_true. cbn [Nat.eqb]. apply received_siso. exact Hb.
  - intro Hm. unfold quad_state. destruct (q_paths c) as [|p0 l0] eqn:EP; [contradiction|]. rewrite <- EP in *. unfold single_delay. rewrite H1, H2. cbn [Nat.mul Nat.add Nat.eqb]. rewrite orb_true_r. cbn [negb orb andb]. replace (Nat.min m (quad_max c + 1)) with m by lia.
    match goal with |- context [fold_left ?st (q_paths c) ?a] => set (stp := st) end.
    assert (R : forall l e, fold_left stp l (Raise e) = Raise e). { induction l as [|p l IH]; intro e; [reflexivity|]. cbn [fold_left]. apply IH. }
    assert (K : forall l a, (exists p, In p l /\ (m <= quad_delay c p)%nat) -> fold_left stp l (Ok a) = Raise IndexError).
    { induction l as [|p l IH]; intros a (q & Hq & Dq); [destruct Hq|]. cbn [fold_left]. unfold stp at 2. cbn [bind]. destruct (Nat.leb_spec m (quad_delay c p)) as [L|L]; [apply R|]. destruct Hq as [->|Hq]; [lia|]. apply IH. exists q. split; assumption. }
    rewrite K; [reflexivity|]. assert (I : In (largest (map q_delay (q_paths c))) (map q_delay (q_paths c))) by (apply largest_in; intro Q; apply map_eq_nil in Q; contradiction). apply in_map_iff in I. destruct I as (p & Ep & Hp). exists p. split; [exact Hp|]. unfold quad_delay. rewrite Ep. exact Hm.
Qed.
Print Assumptions C130_quadriga_state.
Example C130_quadriga_state_met : 0 < q_bandwidth town /\ q_paths town <> [] /\ q_rx town = 1%nat /\ q_tx town = 1%nat /\ q_back town = 1%nat.
Proof. repeat split; try discriminate. cbn. lra. Qed.
(** With several antennas, Quadriga channels with a delay for each pair can neither be propagated over nor have a state; with common delays there is a state for as many samples as transmitting antennas only *)
Theorem C130_quadriga_antennas : forall c b n m, q_paths c <> [] -> (1 < q_rx c)%nat -> (1 < q_tx c)%nat ->
  (q_shared c = false -> quad_propagate c b = Raise ValueError /\ quad_state c n m = Raise ValueError) /\
  (q_shared c = true -> 0 < q_bandwidth c -> (quad_max c < m)%nat -> (q_rx c <> q_tx c \/ q_tx c <> n) -> quad_state c n m = Raise ValueError).
Proof.
  intros c b n m HP H1 H2. assert (N : Nat.eqb (q_rx c * q_tx c) 1 = false) by (apply Nat.eqb_neq; nia). split.
  - intro HS. unfold quad_propagate, quad_state, single_delay. destruct (q_paths c); [contradiction|]. rewrite HS, N. split; reflexivity.
  - intros HS Hw Hm HD. unfold quad_state, single_delay. destruct (q_paths c) as [|p0 l0] eqn:EP; [contradiction|]. rewrite HS. cbn [orb negb]. replace (Nat.min m (quad_max c + 1)) with (S (quad_max c)) by lia. cbn [fold_left].
    match goal with |- context [fold_left ?st l0 _] => set (stp := st) end. assert (R : forall l e, fold_left stp l (Raise e) = Raise e). { induction l as [|p l IH]; intro e; [reflexivity|]. cbn [fold_left]. apply IH. }
    cbn [bind]. pose proof (quad_in_time c p0 Hw ltac:(rewrite EP; left; reflexivity)) as Q. destruct (Nat.leb_spec (S (quad_max c)) (quad_delay c p0)); [lia|].
    assert (E : ((Nat.eqb (q_rx c) 1 || Nat.eqb (q_rx c) (q_tx c)) && (Nat.eqb (q_tx c) 1 || Nat.eqb (q_tx c) n))%bool = false).
    { rewrite (proj2 (Nat.eqb_neq (q_rx c) 1)) by lia. rewrite (proj2 (Nat.eqb_neq (q_tx c) 1)) by lia. cbn [orb]. destruct HD as [D|D]; [rewrite (proj2 (Nat.eqb_neq _ _) D); reflexivity|rewrite (proj2 (Nat.eqb_neq _ _) D); apply andb_false_r]. }
    rewrite E. cbn [negb]. rewrite R. reflexivity.
Qed.
Print Assumptions C130_quadriga_antennas.
Example C130_quadriga_antennas_met : quad_state (mkQuad 1 10 2 2 2 true [QuadPath 0 (fun _ _ => RtoC 1)]) 5 4 = Raise ValueError.
Proof.
  destruct (C130_quadriga_antennas (mkQuad 1 10 2 2 2 true [QuadPath 0 (fun _ _ => RtoC 1)]) (Blk 2 1 0 (fun _ _ => RtoC 0)) 5 4) as [_ H]; [discriminate|cbn; lia|cbn; lia|]. apply H; [reflexivity|cbn; lra| |right; discriminate].
  unfold quad_max, in_samples. cbn [q_paths map q_delay largest fold_left q_bandwidth]. rewrite Rmult_0_l. pose proof (rint_cases 0) as Q. pose proof (floor_bounds 0) as F. assert (E : Int_part 0 = 0%Z). { destruct F as [A B]. apply le_IZR in A. rewrite <- plus_IZR in B. apply lt_IZR in B. lia. } cbv zeta in Q. rewrite E in Q. destruct Q as [[-> _]|[_ Q]]; [cbn; lia|exfalso; cbn in Q; lra].
Qed.
(** Then the state mixes up antennas and samples *)
Theorem C130_quadriga_mixed_up_refuted : exists c s, q_rx c = 2%nat /\ q_tx c = 2%nat /\ quad_state c 2 1 = Ok s /\
  (forall r t i, (r < 2)%nat -> (t < 2)%nat -> (i < 2)%nat -> h s r t i 0 = RtoC (INR (2 * t + i))) /\
  exists p, q_paths c = [p] /\ forall r t, q_coefficients p r t = RtoC (INR (2 * r + t)).
Proof.
  exists (mkQuad 1 10 2 2 2 true [QuadPath 0 (fun r t => RtoC (INR (2 * r + t)))]). assert (Z0 : in_samples 0 10 = 0%nat).
  { unfold in_samples. rewrite Rmult_0_l. pose proof (rint_cases 0) as Q. pose proof (floor_bounds 0) as F. assert (E : Int_part 0 = 0%Z). { destruct F as [A B]. apply le_IZR in A. rewrite <- plus_IZR in B. apply lt_IZR in B. lia. } cbv zeta in Q. rewrite E in Q. destruct Q as [[-> _]|[_ Q]]; [reflexivity|exfalso; cbn in Q; lra]. }
  eexists. split; [reflexivity|]. split; [reflexivity|]. split.
  - unfold quad_state, quad_max, quad_delay, single_delay. cbn [q_paths map q_delay largest fold_left q_bandwidth q_rx q_tx q_shared orb negb q_gain]. rewrite Z0. cbn [Nat.min Nat.add Nat.leb bind Nat.eqb orb andb negb q_coefficients]. reflexivity.
  - split; [|eexists; split; [reflexivity|]; intros; reflexivity]. intros r t i Hr Ht Hi. cbn [h impulse_csi Nat.eqb]. rewrite sqrt_1. ring.
Qed.
Print Assumptions C130_quadriga_mixed_up_refuted.

(** Signals reach the receiver only if the coefficients of traced paths do not cancel, and if those of Quadriga paths have a sum with a
    positive real part; then they are received as above.  Otherwise an empty signal is received, even over a single path *)
Theorem C130_lost_signals_refuted : forall b,
  (forall c times, streams b = t_tx c -> traced_energy_scale c times <> 0 -> traced_over c times b = traced_propagate c b) /\
  (forall g w rx tx ratio d e a times, traced_over (mkTraced g w rx ratio tx [Traced d (fun _ => a); Traced e (fun _ => (- a)%C)]) times b = Ok (Blk rx 0 0 (fun _ _ => RtoC 0))) /\
  (forall c, streams b = q_tx c -> 0 < quad_energy_scale c -> quad_over c b = quad_propagate c b) /\
  (forall g w back shared d a, 0 <= g -> Re a <= 0 -> quad_over (mkQuad g w 1 1 back shared [QuadPath d (fun _ _ => a)]) b = Ok (Blk 1 0 0 (fun _ _ => RtoC 0)) /\
     (streams b = 1%nat -> forall j, received (quad_taps (mkQuad g w 1 1 back shared [QuadPath d (fun _ _ => a)])) b 0 (in_samples d w + j) = if Nat.ltb j (samples b) then (RtoC (sqrt g) * a * x b 0 j)%C else RtoC 0)).
Proof.
  intro b. split; [|split; [|split]].
  - intros c times Hs Hn. unfold traced_over, over. destruct (Rle_dec _ 0) as [L|_]; [exfalso; apply Hn; apply Rle_antisym; [exact L|apply Cmod_ge_0]|]. rewrite (proj2 (Nat.eqb_eq _ _) Hs). reflexivity.
  - intros g w rx tx ratio d e a times. unfold traced_over, over. destruct (Rle_dec _ 0) as [_|N]; [reflexivity|]. exfalso. apply N. right. unfold traced_energy_scale. cbn [t_paths fold_right coefficient]. transitivity (Cmod (RtoC 0)); [|apply Cmod_0]. f_equal. clear N. induction times as [|n IH]; cbn [csum]; [ring|]. transitivity (csum (fun _ => a) n + (csum (fun _ => - a) n + 0))%C; [ring|exact IH].
  - intros c Hs Hp. unfold quad_over, over. destruct (Rle_dec _ 0) as [L|_]; [lra|]. rewrite (proj2 (Nat.eqb_eq _ _) Hs). reflexivity.
  - intros g w back shared d a Hg Ha. split.
    + unfold quad_over, over. destruct (Rle_dec _ 0) as [_|N]; [reflexivity|]. exfalso. apply N. unfold quad_energy_scale. cbn [q_gain q_paths fold_right q_coefficients q_rx q_tx csum fst Cplus RtoC]. unfold Re in Ha. nra.
    + intros Hs j. unfold received, quad_taps. cbn [q_paths q_gain q_bandwidth q_delay q_coefficients map total td weight]. rewrite Hs. cbn [csum]. replace (in_samples d w + j - in_samples d w)%nat with j by lia. rewrite (proj2 (Nat.leb_le (in_samples d w) (in_samples d w + j))) by lia. cbn [andb].
      destruct (Nat.ltb_spec j (samples b)); destruct (Nat.ltb_spec (in_samples d w + j) (in_samples d w + samples b)); try lia; ring.
Qed.
Print Assumptions C130_lost_signals_refuted.
Example C130_lost_signals_refuted_met : 0 < quad_energy_scale town /\ traced_energy_scale street 1 <> 0.
Proof.
  split; [|rewrite (proj2 C130_traced_energy_refuted_met); lra]. unfold quad_energy_scale, town. cbn. lra.
Qed.
