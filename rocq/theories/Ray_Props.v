(** C110: propagation over the rays of cluster delay lines. *)
From Coq Require Import List Reals ZArith Bool Arith Lia Lra.
From Coquelicot Require Import Complex.
From Verif Require Import Base BaseLemmas Cplx Cplx_Proofs Log_Model Rot_Model Ant_Model Chan_Model Chan_Spec Chan_Proofs Ray_Model Ray_Spec Ray_Proofs.
Import ListNotations.
Open Scope R_scope.

(** Two devices with one antenna each, of fields a at the transmitter and b at the receiver, a metre apart; the receiver moves *)
Definition siso (a b : field) (v : vec) : ends := mkEnds (fun _ _ => a) (fun _ _ => b) 1 1 (V 0 0 0) (V 1 0 0) (V 0 0 0) v 1 299792458.
Definition straight : ray := mkRay 0 (PI / 2) 0 0 ((RtoC 1, RtoC 0), (RtoC 0, RtoC 1)).
Definition up : field := (RtoC 1, RtoC 0).
Definition side : field := (RtoC 0, RtoC 1).
Lemma siso_valid : forall los p y a b v, valid (simple los p y) (siso a b v).
Proof. intros. apply simple_valid. cbn. lra. Qed.

(** Every signal propagates.  The output has one stream per receiving antenna, is longer by the delay of the latest path and is the
    superposition of the copies that travel along the rays and, if there is one, the line of sight.  Rays of the third and later clusters arrive once,
    at the delay of their cluster; those of the first two clusters three times or never, as [arrivals] says *)
Theorem C110_superposition : forall s e b, valid s e -> streams b = n_tx e ->
  exists y, propagate s e NEAREST b = Ok y /\ streams y = n_rx e /\ samples y = (samples b + ceil_of (max_delay s * bandwidth e))%nat /\ offset y = offset b /\
  forall r j, x y r j = received (copies arrivals s e) b r j.
Proof. exact propagate_received. Qed.
Print Assumptions C110_superposition.

Theorem C110_linearity : forall s e a b k ya yb yab yk, valid s e -> streams a = n_tx e -> streams b = n_tx e -> samples a = samples b ->
  propagate s e NEAREST a = Ok ya -> propagate s e NEAREST b = Ok yb -> propagate s e NEAREST (add_blk a b) = Ok yab -> propagate s e NEAREST (scale_blk k a) = Ok yk ->
  (forall r j, x yab r j = (x ya r j + x yb r j)%C) /\ (forall r j, x yk r j = (k * x ya r j)%C).
Proof.
  intros s e a b k ya yb yab yk Hv Ha Hb Hn Ea Eb Eab Ek.
  destruct (propagate_received s e a Hv Ha) as [za [Fa [_ [_ [_ Xa]]]]]. destruct (propagate_received s e b Hv Hb) as [zb [Fb [_ [_ [_ Xb]]]]].
  destruct (propagate_received s e (add_blk a b) Hv Ha) as [zab [Fab [_ [_ [_ Xab]]]]]. destruct (propagate_received s e (scale_blk k a) Hv Ha) as [zk [Fk [_ [_ [_ Xk]]]]].
  rewrite Ea in Fa. rewrite Eb in Fb. rewrite Eab in Fab. rewrite Ek in Fk. injection Fa as ->. injection Fb as ->. injection Fab as ->. injection Fk as ->. split; intros r j.
  - rewrite Xab, Xa, Xb. apply received_plus; congruence.
  - rewrite Xk, Xa. apply received_scal.
Qed.
Print Assumptions C110_linearity.

(** The split of the two strongest clusters is wrong: no ray of them arrives as the standard says, once, at the delay of its own part *)
Theorem C110_rays_refuted :
  (forall s c r k, (c < 2)%nat -> length (due s c r k) = 1%nat /\ (length (arrivals s c r k) = 3%nat \/ arrivals s c r k = [])) /\
  (** if only rays of the second and third part of a single cluster carry a signal, nothing is received *)
  (forall s e k b, valid s e -> clusters s = [k] -> line_of_sight s = false -> streams b = n_tx e ->
    (forall r y, nth_error (c_rays k) r = Some y -> part r = 0%nat -> all_zero (jones y)) ->
    exists z, propagate s e NEAREST b = Ok z /\ forall r j, x z r j = RtoC 0) /\
  (** later clusters are not affected *)
  (forall s c r k, (2 <= c)%nat -> arrivals s c r k = due s c r k).
Proof.
  split; [|split].
  - intros s c r k Hc. unfold due, arrivals. replace (Nat.ltb c 2) with true by (symmetry; apply Nat.ltb_lt; exact Hc). split; [reflexivity|].
    destruct (_ && _)%bool; [left|right]; reflexivity.
  - intros s e k b Hv Ek Hl Hb Hz. destruct (propagate_received s e b Hv Hb) as [z [Ez [_ [_ [_ Xz]]]]]. exists z. split; [exact Ez|]. intros r j. rewrite Xz.
    unfold received, copies. rewrite Hl, app_nil_r, Ek. cbn [number flat_map fst snd]. rewrite app_nil_r, total_flat_map, (total_number _ _ dull).
    rewrite (total_ext _ (fun _ => RtoC 0)); [apply total_0|]. intros q Hq. apply in_seq in Hq. cbn [fst snd Nat.add]. rewrite total_map.
    unfold arrivals. cbn [Nat.ltb Nat.leb]. destruct (Nat.eqb_spec (part q) 0) as [E0|E0]; [|rewrite andb_false_r; reflexivity].
    rewrite (total_ext _ (fun _ => RtoC 0)); [apply total_0|]. intros d _. rewrite (csum_ext _ (fun _ => RtoC 0)); [apply csum_0|]. intros t _.
    cbn [copy td weight ray_path channel]. assert (J : all_zero (jones (nth q (c_rays k) dull))) by (apply (Hz q); [apply nth_error_nth'; lia|exact E0]).
    unfold couple. rewrite J. cbn [fst snd]. destruct (_ && _)%bool; ring.
  - intros s c r k Hc. unfold due, arrivals. replace (Nat.ltb c 2) with false by (symmetry; apply Nat.ltb_ge; exact Hc). reflexivity.
Qed.
Print Assumptions C110_rays_refuted.
(** a ray of the second part, through which a signal would be received *)
Definition quiet : sample := mkSample false 0 0 0 20 [mkCluster 0 1 (repeat dull 8 ++ repeat straight 10 ++ repeat dull 2)].
Example C110_rays_met : valid quiet (siso up up (V 0 0 0)) /\
  (forall r y, nth_error (repeat dull 8 ++ repeat straight 10 ++ repeat dull 2) r = Some y -> part r = 0%nat -> all_zero (jones y)) /\
  Cmod (couple up (jones straight) up) = 1.
Proof.
  split; [|split].
  - unfold valid, quiet. cbn [clusters num_rays delay_spread delay_offset]. split; [discriminate|]. split; [lia|]. split; [lra|]. split; [lra|]. split; [cbn; lra|].
    intros k [<-|[]]. cbn [c_rays c_delay]. split; [reflexivity|lra].
  - intros r y Hr Hp. do 8 (destruct r as [|r]; [injection Hr as <-; reflexivity|]). do 10 (destruct r as [|r]; [discriminate Hp|]).
    do 2 (destruct r as [|r]; [injection Hr as <-; reflexivity|]). destruct r; discriminate Hr.
  - unfold couple, straight, up. cbn [jones fst snd]. replace (_ + _)%C with (RtoC 1) by ring. apply Cmod_1.
Qed.

(** The energy of the copies differs from the expected energy scale: it weights the first cluster by 1.5 and the second by 0.9,
    and is right in a single case *)
Theorem C110_energy_refuted : forall s e k0 k1 l r t, valid s e -> clusters s = k0 :: k1 :: l -> num_rays s = 20%nat -> line_of_sight s = false -> unit_coupling s e r t ->
  (forall k, In k (clusters s) -> 0 <= c_power k) ->
  energy (copies arrivals s e) r t = 3 / 2 * c_power k0 + 9 / 10 * c_power k1 + real_total c_power l /\
  (energy (copies arrivals s e) r t = expected_energy_scale s <-> c_power k1 = 5 * c_power k0) /\
  9 / 10 * expected_energy_scale s <= energy (copies arrivals s e) r t <= 3 / 2 * expected_energy_scale s.
Proof.
  intros s e k0 k1 l r t Hv E H20 Hl Hu Hp. pose proof (split_energy s e k0 k1 l r t Hv E H20 Hl Hu Hp) as K. rewrite K.
  assert (X : expected_energy_scale s = c_power k0 + (c_power k1 + real_total c_power l)).
  { unfold expected_energy_scale. rewrite E. cbn [map fold_right]. do 2 f_equal. clear. induction l as [|a l IH]; [reflexivity|]. cbn [map fold_right real_total]. rewrite IH. reflexivity. }
  assert (P0 : 0 <= c_power k0) by (apply Hp; rewrite E; left; reflexivity).
  assert (P1 : 0 <= c_power k1) by (apply Hp; rewrite E; right; left; reflexivity).
  assert (Pl : 0 <= real_total c_power l).
  { assert (Q : forall k, In k l -> 0 <= c_power k) by (intros k Hk; apply Hp; rewrite E; right; right; exact Hk). clear - Q. induction l as [|a l IH]; [cbn; lra|].
    cbn [real_total fold_right]. fold (real_total c_power l). pose proof (Q a (or_introl eq_refl)). specialize (IH (fun k Hk => Q k (or_intror Hk))). lra. }
  rewrite X. split; [reflexivity|]. split; [split; intros; lra|lra].
Qed.
Print Assumptions C110_energy_refuted.
Definition two_clusters : sample := mkSample false 0 0 0 20 [mkCluster 0 2 (repeat straight 20); mkCluster 1 1 (repeat straight 20)].
Example C110_energy_met : valid two_clusters (siso up up (V 0 0 0)) /\ unit_coupling two_clusters (siso up up (V 0 0 0)) 0 0.
Proof.
  split.
  - unfold valid, two_clusters. cbn [clusters num_rays delay_spread delay_offset]. split; [discriminate|]. split; [lia|]. split; [lra|]. split; [lra|]. split; [cbn; lra|].
    intros k [<-|[<-|[]]]; cbn [c_rays c_delay]; split; try reflexivity; lra.
  - intros k y Hk Hy. assert (y = straight) as -> by (destruct Hk as [<-|[<-|[]]]; cbn [c_rays] in Hy; exact (repeat_spec _ _ _ Hy)).
    unfold siso, couple, straight, up. cbn [rx tx jones fst snd]. replace (_ + _)%C with (RtoC 1) by ring. apply Cmod_1.
Qed.

(** With a line of sight, the Rice factor K divides the energy: rays keep 1 / (1 + K) of what they would carry without one, and the line of sight
    carries K / (1 + K), whatever the powers of the clusters *)
Theorem C110_rice_factor : forall s e r t, line_of_sight s = true -> let K := Rpower 10 (rice_factor s / 10) in
  energy (copies arrivals s e) r t = energy (copies arrivals (scattered s) e) r t / (1 + K) + Cmod (couple (rx e (tx_position e) r) los_matrix (tx e (rx_position e) t)) ^ 2 * (K / (1 + K)).
Proof. exact rice_energy. Qed.
Print Assumptions C110_rice_factor.
(** with a Rice factor of 0 dB, half of the energy of the rays remains and the line of sight carries one half *)
Example C110_rice_factor_met : let s := mkSample true 0 0 0 20 (clusters two_clusters) in let e := siso up up (V 0 0 0) in
  energy (copies arrivals s e) 0 0 = energy (copies arrivals two_clusters e) 0 0 / 2 + 1 / 2.
Proof.
  intros s e. rewrite (C110_rice_factor s e 0%nat 0%nat eq_refl). cbn [s rice_factor]. change (scattered s) with two_clusters.
  replace (Rpower 10 (0 / 10)) with 1 by (unfold Rdiv; rewrite Rmult_0_l, Rpower_O; lra).
  replace (couple (rx e (tx_position e) 0) los_matrix (tx e (rx_position e) 0)) with (RtoC 1) by (unfold couple, los_matrix, e, siso, up; cbn [rx tx fst snd]; ring).
  rewrite Cmod_1. field.
Qed.

(** Clusters of fewer than twenty rays cannot be propagated over *)
Theorem C110_few_rays_refuted : forall s e k l b n m, clusters s = k :: l -> (length (c_rays k) < 20)%nat -> streams b = n_tx e ->
  propagate s e NEAREST b = Raise IndexError /\ state s e n m = Raise IndexError.
Proof.
  intros s e k l b n m E Hl Hb. pose proof (paths_missing s e k l E Hl) as K. unfold propagate, state. rewrite K, Hb, Nat.eqb_refl. split; reflexivity.
Qed.
Print Assumptions C110_few_rays_refuted.
Example C110_few_rays_met : let s := mkSample false 0 0 0 19 [mkCluster 0 1 (repeat straight 19)] in clusters s = [mkCluster 0 1 (repeat straight 19)] /\ (length (repeat straight 19) < 20)%nat.
Proof. split; [reflexivity|]. rewrite repeat_length. lia. Qed.

(** Interpolations other than the nearest sample receive nothing *)
Theorem C110_interpolation_refuted : forall s e b, valid s e -> streams b = n_tx e ->
  exists y, propagate s e SINC b = Ok y /\ samples y = (samples b + ceil_of (max_delay s * bandwidth e))%nat /\ forall r j, x y r j = RtoC 0.
Proof.
  intros s e b Hv Hb. unfold propagate. rewrite Hb, Nat.eqb_refl, (paths_ok s e Hv). cbn [negb bind]. set (l := (_ ++ _)%list). clearbody l.
  assert (K : forall l a, fold_left (fun (acc : result (nat -> nat -> C)) (_ : path) => do a <- acc; Ok a) l (Ok a) = Ok a) by (induction l0 as [|p l0 IH]; intros a; [reflexivity|exact (IH a)]).
  rewrite K. cbn [bind]. eexists. split; [reflexivity|]. split; reflexivity.
Qed.
Print Assumptions C110_interpolation_refuted.

(** The channel state, with enough taps, applied to a signal is the propagated signal; with fewer taps the copies of [max_num_taps] samples
    delay and more are missing, and the last of the taps is empty *)
Theorem C110_state : forall s e n m b, valid s e -> streams b = n_tx e -> (samples b <= n)%nat ->
  exists c y z, state s e n m = Ok c /\ csi_propagate c b = Ok y /\ propagate s e NEAREST b = Ok z /\
  ntaps c = (1 + Nat.min m (ceil_of (max_delay s * bandwidth e)))%nat /\
  ((ceil_of (max_delay s * bandwidth e) < m)%nat -> same_samples z y) /\
  (forall r j, (r < n_rx e)%nat -> x y r j = received (filter (fun p => Nat.ltb (td p) m) (copies arrivals s e)) b r j) /\
  ((m <= ceil_of (max_delay s * bandwidth e))%nat -> forall r t i, h c r t i m = RtoC 0).
Proof.
  intros s e n m b Hv Hb Hn. pose proof (paths_ok s e Hv) as El. set (l := (_ ++ _)%list) in El. clearbody l.
  destruct (state_ok s e n m l Hv El) as [g [Eg Hg]]. destruct (state_applied s e n m l b _ Hv El Eg Hb Hn) as [y [Ey [Sy [Ny Xy]]]].
  destruct (propagate_received s e b Hv Hb) as [z [Ez [Sz [Nz [_ Xz]]]]]. eexists. exists y, z. split; [exact Eg|]. split; [exact Ey|]. split; [exact Ez|]. split; [reflexivity|].
  split; [|split].
  - intros Hm. split; [congruence|]. split; [rewrite Nz, Ny; lia|]. intros r j Hr _. rewrite Xz, Xy by congruence. unfold received.
    rewrite total_filter, !(copies_total s e l _ Hv El). apply total_ext. intros p Hp. cbn [copy td]. fold (samples_of s e p).
    pose proof (path_in_time s e l p Hv El Hp). replace (Nat.ltb (samples_of s e p) m) with true by (symmetry; apply Nat.ltb_lt; lia). reflexivity.
  - exact Xy.
  - intros Hm r t i. cbn [impulse_csi h]. rewrite Hg, (total_ext _ (fun _ => RtoC 0)); [apply total_0|]. intros p _.
    destruct (Nat.eqb_spec m (samples_of s e p)) as [->|]; [rewrite Nat.ltb_irrefl|]; reflexivity.
Qed.
Print Assumptions C110_state.

(** Path loss and gain scale what travels along the rays, but not the line of sight *)
Theorem C110_attenuation : forall a s e b y z, 0 <= a -> valid s e -> (forall k, In k (clusters s) -> 0 <= c_power k) -> streams b = n_tx e ->
  propagate s e NEAREST b = Ok y -> propagate (attenuated a s) e NEAREST b = Ok z ->
  forall r j, x z r j = (RtoC (sqrt a) * x y r j + (if line_of_sight s then RtoC (1 - sqrt a) * received [copy s e (los_path s e)] b r j else RtoC 0))%C.
Proof.
  intros a s e b y z Ha Hv Hp Hb Ey Ez r j. destruct (propagate_received s e b Hv Hb) as [y' [Ey' [_ [_ [_ Xy]]]]].
  destruct (propagate_received (attenuated a s) e b (attenuated_valid a s e Hv) Hb) as [z' [Ez' [_ [_ [_ Xz]]]]]. rewrite Ey in Ey'. rewrite Ez in Ez'. injection Ey' as <-. injection Ez' as <-.
  rewrite Xy, Xz. apply attenuated_received; assumption.
Qed.
Print Assumptions C110_attenuation.
(** However large the path loss: a signal over the line of sight is received at a power of one half (Rice factor 0 dB) *)
Theorem C110_attenuation_refuted : forall a, 0 <= a -> exists y, propagate (attenuated a (simple true 1 dull)) (siso up up (V 0 0 0)) NEAREST (Blk 1 1 0 (fun _ _ => RtoC 1)) = Ok y /\ Cmod (x y 0%nat 0%nat) ^ 2 = 1 / 2.
Proof.
  intros a Ha. set (e := siso up up (V 0 0 0)). set (s := simple true 1 dull). set (b := Blk 1 1 0 (fun _ _ => RtoC 1)).
  pose proof (siso_valid true 1 dull up up (V 0 0 0)) as Hv. fold e s in Hv.
  destruct (propagate_received (attenuated a s) e b (attenuated_valid a s e Hv) eq_refl) as [z [Ez [_ [_ [_ Xz]]]]]. exists z. split; [exact Ez|]. rewrite Xz.
  rewrite attenuated_received; [|exact Ha|intros k [<-|[]]; cbn; lra]. change (line_of_sight s) with true. cbn iota.
  assert (K : received (copies arrivals s e) b 0 0 = received [copy s e (los_path s e)] b 0 0).
  { unfold received, copies. change (line_of_sight s) with true. cbn iota. rewrite total_app.
    match goal with |- (?A + _ = _)%C => replace A with (RtoC 0); [ring|] end. symmetry. unfold s, simple. cbn [clusters number flat_map fst snd]. rewrite app_nil_r, total_flat_map.
    rewrite (total_ext _ (fun _ => RtoC 0)); [apply total_0|]. intros [q y] Hy. apply in_number in Hy. cbn [c_rays snd] in Hy. apply repeat_spec in Hy. subst y. cbn [fst snd]. rewrite total_map.
    rewrite (total_ext _ (fun _ => RtoC 0)); [apply total_0|]. intros d _. rewrite (csum_ext _ (fun _ => RtoC 0)); [apply csum_0|]. intros t _.
    cbn [copy td weight ray_path channel]. unfold couple. cbn [dull jones fst snd]. destruct (_ && _)%bool; ring. }
  rewrite K, RtoC_minus. replace (_ + _)%C with (received [copy s e (los_path s e)] b 0 0) by ring.
  unfold received. cbn [total b streams samples x csum copy td weight los_path p_delay]. change (clusters s) with [mkCluster 0 1 (repeat dull 20)]. cbn [c_delay].
  assert (E1 : int_of ((0 + delay_offset s) * bandwidth e) = 0%nat).
  { cbn [s simple delay_offset]. rewrite Rplus_0_r, Rmult_0_l. unfold int_of. pose proof (floor_spec 0) as [Hf _]. assert ((Int_part 0 <= 0)%Z) by (apply le_IZR; lra). lia. }
  rewrite E1. cbn [Nat.leb Nat.ltb andb Nat.add Nat.sub]. unfold los_path. cbn [channel impulse]. rewrite rotation_still by reflexivity.
  assert (E2 : db2lin (rice_factor s) Power = 1) by (cbn [s simple rice_factor]; unfold db2lin, Rdiv; rewrite Rmult_0_l; apply Rpower_O; lra). rewrite E2.
  replace (couple _ los_matrix _) with (RtoC 1) by (unfold couple, los_matrix; cbn [e siso rx tx up fst snd]; ring).
  rewrite Cplus_0_l, Cplus_0_r, !Cmult_1_r, Cmult_1_l, !Cmod_mult, cis_mod, Cmod_R, Rabs_right by (apply Rle_ge, sqrt_pos).
  rewrite Rmult_1_r, pow2_sqrt; lra.
Qed.
Print Assumptions C110_attenuation_refuted.

(** The line of sight does not exist for transmitters whose field is horizontal, however the receiver is polarized *)
Theorem C110_los_polarization_refuted : forall s e b, valid s e -> streams b = n_tx e -> (forall k, In k (clusters s) -> c_power k = 0) -> (forall t, fst (tx e (rx_position e) t) = RtoC 0) ->
  exists y, propagate s e NEAREST b = Ok y /\ forall r j, x y r j = RtoC 0.
Proof.
  intros s e b Hv Hb Hp Hz. destruct (propagate_received s e b Hv Hb) as [y [Ey [_ [_ [_ Xy]]]]]. exists y. split; [exact Ey|]. intros r j. rewrite Xy.
  unfold received, copies. rewrite total_app. replace (RtoC 0) with (RtoC 0 + RtoC 0)%C by ring. f_equal.
  - rewrite total_flat_map, (total_ext _ (fun _ => RtoC 0)); [apply total_0|]. intros [c k] Hk. apply in_number in Hk. cbn [snd] in Hk.
    rewrite total_flat_map, (total_ext _ (fun _ => RtoC 0)); [apply total_0|]. intros [q w] _. rewrite total_map, (total_ext _ (fun _ => RtoC 0)); [apply total_0|]. intros d _.
    rewrite (csum_ext _ (fun _ => RtoC 0)); [apply csum_0|]. intros t _. cbn [copy td weight ray_path channel fst snd]. rewrite (Hp k Hk). unfold Rdiv. rewrite Rmult_0_l, sqrt_0, Rmult_0_l.
    destruct (_ && _)%bool; ring.
  - destruct (line_of_sight s); [|reflexivity]. cbn [total]. rewrite (csum_ext _ (fun _ => RtoC 0)); [rewrite csum_0; ring|]. intros t _. cbn [copy td weight los_path channel].
    unfold couple, los_matrix. cbn [fst snd]. rewrite Hz. destruct (_ && _)%bool; ring.
Qed.
Print Assumptions C110_los_polarization_refuted.
Example C110_los_polarization_met : valid (simple true 0 straight) (siso side side (V 0 0 0)) /\ line_of_sight (simple true 0 straight) = true /\
  forall t, fst (tx (siso side side (V 0 0 0)) (rx_position (siso side side (V 0 0 0))) t) = RtoC 0.
Proof. split; [apply siso_valid|]. split; [reflexivity|]. intros t. reflexivity. Qed.

(** Devices that move alike see a constant channel; movement rotates the copies and does not change their strength *)
Theorem C110_doppler : forall s e, valid s e ->
  (rx_velocity e = tx_velocity e -> forall n m c, state s e n m = Ok c -> forall r t i k, h c r t i k = h c r t 0%nat k) /\
  (forall p r t i, In p (copies arrivals s e) -> Cmod (weight p r t i) = Cmod (weight p r t 0%nat)).
Proof.
  intros s e Hv. split.
  - intros Hs n m c Ec r t i k. pose proof (paths_ok s e Hv) as El. destruct (state_ok s e n m _ Hv El) as [g [Eg Hg]]. rewrite Ec in Eg. injection Eg as ->. cbn [impulse_csi h]. rewrite !Hg.
    apply total_ext. intros p Hp. destruct (_ && _)%bool; [|reflexivity]. f_equal. apply in_app_or in Hp. destruct Hp as [Hp|Hp].
    + apply in_map_iff in Hp. destruct Hp as [[[c q] d] [<- _]]. cbn [seen ray_path impulse]. rewrite !rotation_still by exact Hs. reflexivity.
    + destruct (line_of_sight s); [|destruct Hp]. destruct Hp as [<-|[]]. cbn [los_path impulse]. rewrite !rotation_still by exact Hs. reflexivity.
  - intros p r t i Hp. unfold copies in Hp. apply in_app_or in Hp. destruct Hp as [Hp|Hp].
    + apply in_flat_map in Hp. destruct Hp as [k [_ Hp]]. apply in_flat_map in Hp. destruct Hp as [y [_ Hp]]. apply in_map_iff in Hp. destruct Hp as [d [<- _]].
      cbn [copy weight ray_path channel impulse]. rewrite !Cmod_mult, !rotation_mod. reflexivity.
    + destruct (line_of_sight s); [|destruct Hp]. destruct Hp as [<-|[]]. cbn [copy weight los_path channel impulse]. rewrite !Cmod_mult, !rotation_mod. reflexivity.
Qed.
Print Assumptions C110_doppler.

(** The phase of the line of sight is that of its distance at the first sample; afterwards it turns as if devices that move apart came closer *)
Theorem C110_los_phase : forall s e r t i, carrier e <> 0 -> bandwidth e <> 0 -> let K := Rpower 10 (rice_factor s / 10) in let v := vsub (rx_position e) (tx_position e) in
  let wavelength := 299792458 / carrier e in let separation := dot (vscale (/ norm v) v) (vsub (rx_velocity e) (tx_velocity e)) * (INR i / bandwidth e) in
  weight (copy s e (los_path s e)) r t i
  = (couple (rx e (tx_position e) r) los_matrix (tx e (rx_position e) t) * RtoC (sqrt (K / (1 + K))) * cis (- (2 * PI * ((norm v - separation) / wavelength))))%C.
Proof.
  intros s e r t i Hc Hb K v wavelength separation. cbn [copy weight los_path channel impulse]. unfold db2lin. cbn [factor]. fold K v.
  f_equal. unfold rotation_of. rewrite <- cis_add. f_equal. unfold wavelength, separation. field. split; assumption.
Qed.
Print Assumptions C110_los_phase.
(** A quarter of a wavelength further away after one sample, the phase is that of a quarter of a wavelength less, the opposite of what it should be *)
Theorem C110_los_doppler_refuted : let e := siso up up (V (1 / 4) 0 0) in let late := mkEnds (tx e) (rx e) 1 1 (V 0 0 0) (V (5 / 4) 0 0) (V 0 0 0) (V (1 / 4) 0 0) 1 299792458 in
  forall s, weight (copy s e (los_path s e)) 0 0 1 = (- weight (copy s late (los_path s late)) 0 0 0)%C /\ weight (copy s e (los_path s e)) 0 0 1 <> RtoC 0.
Proof.
  intros e late s. assert (N1 : forall a, 0 < a -> norm (V a 0 0) = a) by (intros a Ha; unfold norm, dot; cbn [vx vy vz]; replace (a * a + 0 * 0 + 0 * 0) with (a * a) by ring; apply sqrt_square; lra).
  assert (V1 : vsub (rx_position e) (tx_position e) = V 1 0 0) by (unfold e, siso, vsub; cbn [rx_position tx_position vx vy vz]; f_equal; ring).
  assert (V2 : vsub (rx_position late) (tx_position late) = V (5 / 4) 0 0) by (unfold late, vsub; cbn [rx_position tx_position vx vy vz]; f_equal; ring).
  rewrite (C110_los_phase s e 0%nat 0%nat 1%nat), (C110_los_phase s late 0%nat 0%nat 0%nat) by (cbn; lra). cbn zeta. rewrite V1, V2, !N1 by lra.
  replace (couple (rx e (tx_position e) 0) los_matrix (tx e (rx_position e) 0)) with (RtoC 1) by (unfold couple, los_matrix, e, siso, up; cbn [rx tx fst snd]; ring).
  replace (couple (rx late (tx_position late) 0) los_matrix (tx late (rx_position late) 0)) with (RtoC 1) by (unfold couple, los_matrix, late, e, siso, up; cbn [rx tx fst snd]; ring).
  set (K := Rpower 10 (rice_factor s / 10)). assert (HK : 0 < K) by (apply exp_pos).
  assert (A1 : cis (- (2 * PI * ((1 - dot (vscale (/ 1) (V 1 0 0)) (vsub (rx_velocity e) (tx_velocity e)) * (INR 1 / bandwidth e)) / (299792458 / carrier e)))) = (0, 1)).
  { unfold e, siso, dot, vscale, vsub. cbn [rx_velocity tx_velocity bandwidth carrier vx vy vz INR].
    match goal with |- cis ?a = _ => replace a with (- (3 * (PI / 2))) by (field; lra) end. unfold cis. rewrite cos_neg, sin_neg, cos_3PI2, sin_3PI2. f_equal. lra. }
  assert (A2 : cis (- (2 * PI * ((5 / 4 - dot (vscale (/ (5 / 4)) (V (5 / 4) 0 0)) (vsub (rx_velocity late) (tx_velocity late)) * (INR 0 / bandwidth late)) / (299792458 / carrier late)))) = (0, -1)).
  { unfold late, dot, vscale, vsub. cbn [rx_velocity tx_velocity bandwidth carrier vx vy vz INR].
    match goal with |- cis ?a = _ => replace a with (- (PI / 2 + 2 * INR 1 * PI)) by (cbn [INR]; field; lra) end. unfold cis. rewrite cos_neg, sin_neg, cos_period, sin_period, cos_PI2, sin_PI2. reflexivity. }
  rewrite A1, A2. assert (Hq : 0 < sqrt (K / (1 + K))) by (apply sqrt_lt_R0; apply Rdiv_lt_0_compat; lra). split.
  - apply injective_projections; cbn; ring.
  - intro E. apply (f_equal snd) in E. cbn in E. lra.
Qed.
Print Assumptions C110_los_doppler_refuted.

(** The rotation starts anew with every block of a signal: what a block becomes does not depend on its position, so that cutting a signal
    into blocks changes what is received over a moving channel *)
Definition shifted_by (o : nat) (b : blk) : blk := Blk (streams b) (samples b) o (x b).
Lemma rotation_half : rotation_of (siso up up (V (1 / 2) 0 0)) (wave_vector 0 (PI / 2)) 1 = RtoC (-1).
Proof.
  unfold rotation_of, wave_vector. cbn [siso rx_velocity tx_velocity carrier bandwidth vsub dot vx vy vz INR]. rewrite cos_0, sin_0, sin_PI2, cos_PI2.
  unfold dot, vsub. cbn [vx vy vz]. replace (2 * PI * _ * _) with PI by (field; lra). unfold cis. rewrite cos_PI, sin_PI. reflexivity.
Qed.
Theorem C110_blocks_refuted :
  (forall s e m b o y, propagate s e m b = Ok y -> propagate s e m (shifted_by o b) = Ok (shifted_by o y)) /\
  (let e := siso up up (V (1 / 2) 0 0) in
   exists whole second, propagate (simple false 1 straight) e NEAREST (Blk 1 2 0 (fun _ _ => RtoC 1)) = Ok whole /\
     propagate (simple false 1 straight) e NEAREST (Blk 1 1 1 (fun _ _ => RtoC 1)) = Ok second /\
     x whole 0%nat 1%nat = (- x second 0%nat 0%nat)%C /\ x second 0%nat 0%nat <> RtoC 0).
Proof.
  split.
  - intros s e m b o y E. unfold propagate in *. cbn [shifted_by streams samples x offset]. destruct (negb _); [discriminate E|].
    destruct (paths s e) as [l|]; [|discriminate E]. cbn [bind] in *. match type of E with (do y <- ?f; _) = _ => destruct f as [g|]; [|discriminate E] end.
    cbn [bind] in *. injection E as <-. reflexivity.
  - cbn zeta. set (e := siso up up (V (1 / 2) 0 0)).
    destruct (simple_output 1 straight e (Blk 1 2 0 (fun _ _ => RtoC 1)) ltac:(cbn; lra) eq_refl eq_refl) as [w [Ew [_ [_ Xw]]]].
    destruct (simple_output 1 straight e (Blk 1 1 1 (fun _ _ => RtoC 1)) ltac:(cbn; lra) eq_refl eq_refl) as [z [Ez [_ [_ Xz]]]].
    exists w, z. split; [exact Ew|]. split; [exact Ez|]. rewrite Xw by (cbn; lia). rewrite Xz by (cbn; lia). rewrite rotation_0.
    replace (rotation_of e (wave_vector (aoa straight) (zoa straight)) 1) with (RtoC (-1)) by (symmetry; exact rotation_half).
    replace (couple _ _ _) with (RtoC 1) by (unfold couple; cbn [e siso rx tx up straight jones fst snd]; ring). cbn [x]. split.
    + rewrite !Cmult_1_r. replace (RtoC (-1)) with (- RtoC 1)%C by (rewrite <- RtoC_opp; reflexivity). ring.
    + rewrite !Cmult_1_r. intros H. apply RtoC_inj in H. pose proof (sqrt_lt_R0 (1 / 20) ltac:(lra)). lra.
Qed.
Print Assumptions C110_blocks_refuted.

(** A transmitter that moves along the direction of departure does not shift the frequency of a ray which arrives across that direction; the
    opposite link, in which it receives, is rotated by one half turn per sample *)
Definition corner : ray := mkRay (PI / 2) (PI / 2) 0 (PI / 2) ((RtoC 1, RtoC 0), (RtoC 0, RtoC 1)).
Definition mover : ends := mkEnds (fun _ _ => up) (fun _ _ => up) 1 1 (V 0 0 0) (V 1 1 0) (V (1 / 2) 0 0) (V 0 0 0) 1 299792458.
Theorem C110_moving_transmitter_refuted : exists forth back,
  propagate (simple false 1 corner) mover NEAREST (Blk 1 2 0 (fun _ _ => RtoC 1)) = Ok forth /\
  propagate (reciprocal (simple false 1 corner)) (swap mover) NEAREST (Blk 1 2 0 (fun _ _ => RtoC 1)) = Ok back /\
  x forth 0%nat 0%nat <> RtoC 0 /\ x forth 0%nat 1%nat = x forth 0%nat 0%nat /\ x back 0%nat 0%nat = x forth 0%nat 0%nat /\ x back 0%nat 1%nat = (- x back 0%nat 0%nat)%C.
Proof.
  destruct (simple_output 1 corner mover (Blk 1 2 0 (fun _ _ => RtoC 1)) ltac:(cbn; lra) eq_refl eq_refl) as [f [Ef [_ [_ Xf]]]].
  destruct (simple_output 1 (turned corner) (swap mover) (Blk 1 2 0 (fun _ _ => RtoC 1)) ltac:(cbn; lra) eq_refl eq_refl) as [k [Ek [_ [_ Xk]]]].
  exists f, k. split; [exact Ef|]. split; [exact Ek|].
  assert (R1 : rotation_of mover (wave_vector (aoa corner) (zoa corner)) 1 = RtoC 1).
  { unfold rotation_of, wave_vector. cbn [mover corner aoa zoa rx_velocity tx_velocity carrier bandwidth vsub dot vx vy vz INR]. rewrite sin_PI2, cos_PI2.
    unfold dot, vsub. cbn [vx vy vz]. replace (2 * PI * _ * _) with 0 by (field; lra). apply cis_0. }
  assert (R2 : rotation_of (swap mover) (wave_vector (aoa (turned corner)) (zoa (turned corner))) 1 = RtoC (-1)).
  { unfold rotation_of, wave_vector. cbn [swap mover turned corner aod zod aoa zoa rx_velocity tx_velocity carrier bandwidth vsub dot vx vy vz INR]. rewrite cos_0, sin_0, sin_PI2, cos_PI2.
    unfold dot, vsub. cbn [vx vy vz]. replace (2 * PI * _ * _) with PI by (field; lra). unfold cis. rewrite cos_PI, sin_PI. reflexivity. }
  rewrite !Xf by (cbn; lia). rewrite !Xk by (cbn; lia). rewrite !rotation_0, R1, R2.
  assert (C1 : couple (rx mover (From_Spherical (aoa corner) (zoa corner)) 0) (jones corner) (tx mover (From_Spherical (aod corner) (zod corner)) 0) = RtoC 1) by (unfold couple; cbn [mover rx tx up corner jones fst snd]; ring).
  assert (C2 : couple (rx (swap mover) (From_Spherical (aoa (turned corner)) (zoa (turned corner))) 0) (jones (turned corner)) (tx (swap mover) (From_Spherical (aod (turned corner)) (zod (turned corner))) 0) = RtoC 1)
    by (unfold couple; cbn [swap mover rx tx up turned corner jones fst snd]; ring).
  rewrite C1, C2. cbn [x]. rewrite !Cmult_1_r. split; [|split; [reflexivity|split; [reflexivity|]]].
  - intros H. apply RtoC_inj in H. pose proof (sqrt_lt_R0 (1 / 20) ltac:(lra)). lra.
  - replace (RtoC (-1)) with (- RtoC 1)%C by (rewrite <- RtoC_opp; reflexivity). ring.
Qed.
Print Assumptions C110_moving_transmitter_refuted.

(** The reciprocal of the reciprocal is the sample.  Without line of sight and relative movement, the reciprocal channel is the transposed one,
    provided that the polarization matrices are symmetric *)
Theorem C110_reciprocity : forall s, reciprocal (reciprocal s) = s /\
  forall e n m c, valid s e -> line_of_sight s = false -> rx_velocity e = tx_velocity e -> (forall k y, In k (clusters s) -> In y (c_rays k) -> symmetric (jones y)) ->
  state s e n m = Ok c ->
  exists d, state (reciprocal s) (swap e) n m = Ok d /\ nrx d = ntx c /\ ntx d = nrx c /\ nsamples d = nsamples c /\ ntaps d = ntaps c /\ forall r t i k, h d t r i k = h c r t i k.
Proof.
  intros s. split.
  - destruct s as [a b c d n l]. unfold reciprocal. cbn [line_of_sight rice_factor delay_offset delay_spread num_rays clusters]. f_equal. rewrite map_map. rewrite <- (map_id l) at 2. apply map_ext.
    intros [dl p ys]. cbn [c_delay c_power c_rays]. f_equal. rewrite map_map. rewrite <- (map_id ys) at 2. apply map_ext. intros [? ? ? ? ?]. reflexivity.
  - intros e n m c Hv Hl Hm Hs Ec. pose proof (reciprocal_valid s e Hv) as Hv'. pose proof (paths_ok s e Hv) as El. pose proof (paths_ok _ _ Hv') as El'.
    destruct (state_ok s e n m _ Hv El) as [g [Eg Hg]]. rewrite Ec in Eg. injection Eg as ->. destruct (state_ok _ _ n m _ Hv' El') as [g' [Eg' Hg']]. eexists. split; [exact Eg'|].
    rewrite reciprocal_max_delay. cbn [impulse_csi nrx ntx nsamples ntaps h swap n_rx n_tx bandwidth]. split; [reflexivity|]. split; [reflexivity|]. split; [reflexivity|]. split; [reflexivity|].
    intros r t i k. rewrite Hg, Hg', !total_app, Hl. change (line_of_sight (reciprocal s)) with (line_of_sight s). rewrite Hl. f_equal. rewrite !total_map, (reciprocal_visits s e Hv).
    apply total_ext. intros v Hin. destruct (seen_reciprocal s e v Hv Hin Hs) as [Ed Ecn]. unfold samples_of. rewrite Ed, Ecn. change (delay_offset (reciprocal s)) with (delay_offset s). change (bandwidth (swap e)) with (bandwidth e).
    destruct v as [[c q] d]. cbn [seen ray_path impulse]. rewrite !rotation_still by (cbn [swap rx_velocity tx_velocity]; congruence). reflexivity.
Qed.
Print Assumptions C110_reciprocity.
Example C110_reciprocity_met : valid (simple false 1 straight) (siso up up (V 0 0 0)) /\ (forall k y, In k (clusters (simple false 1 straight)) -> In y (c_rays k) -> symmetric (jones y)).
Proof. split; [apply siso_valid|]. intros k y [<-|[]] Hy. cbn [c_rays] in Hy. apply repeat_spec in Hy. subst. reflexivity. Qed.

(** In general it is not: a ray that turns horizontal into vertical fields does the same in the reciprocal sample, and the line of sight
    only looks at the vertical field of whichever end transmits *)
Definition turning : ray := mkRay 0 0 0 0 ((RtoC 0, RtoC 1), (RtoC 0, RtoC 0)).
Theorem C110_reciprocity_refuted :
  (exists forth back, propagate (simple false 1 turning) (siso side up (V 0 0 0)) NEAREST (Blk 1 1 0 (fun _ _ => RtoC 1)) = Ok forth /\
    propagate (reciprocal (simple false 1 turning)) (swap (siso side up (V 0 0 0))) NEAREST (Blk 1 1 0 (fun _ _ => RtoC 1)) = Ok back /\
    x forth 0%nat 0%nat <> RtoC 0 /\ x back 0%nat 0%nat = RtoC 0) /\
  (forall s e, fst (tx e (rx_position e) 0%nat) = RtoC 0 -> channel (los_path s e) 0%nat 0%nat = RtoC 0 /\
    channel (los_path (reciprocal s) (swap e)) 0%nat 0%nat =
      (- (snd (tx e (rx_position e) 0%nat) * fst (rx e (tx_position e) 0%nat)) * RtoC (sqrt (db2lin (rice_factor s) Power / (1 + db2lin (rice_factor s) Power))))%C).
Proof.
  split.
  - set (e := siso side up (V 0 0 0)).
    destruct (simple_output 1 turning e (Blk 1 1 0 (fun _ _ => RtoC 1)) ltac:(cbn; lra) eq_refl eq_refl) as [f [Ef [_ [_ Xf]]]].
    destruct (simple_output 1 (turned turning) (swap e) (Blk 1 1 0 (fun _ _ => RtoC 1)) ltac:(cbn; lra) eq_refl eq_refl) as [k [Ek [_ [_ Xk]]]].
    exists f, k. split; [exact Ef|]. split; [exact Ek|]. rewrite Xf by (cbn; lia). rewrite Xk by (cbn; lia). rewrite !rotation_0. split.
    + change (couple _ _ _) with (couple up (jones turning) side).
      assert (Ec : couple up (jones turning) side = RtoC 1) by (unfold couple; cbn [up side turning jones fst snd]; ring). rewrite Ec. cbn [x]. rewrite !Cmult_1_r.
      intros H. apply RtoC_inj in H. pose proof (sqrt_lt_R0 (1 / 20) ltac:(lra)). lra.
    + change (couple _ _ _) with (couple side (jones turning) up).
      assert (Ec : couple side (jones turning) up = RtoC 0) by (unfold couple; cbn [up side turning jones fst snd]; ring). rewrite Ec. ring.
  - intros s e Hz. cbn [los_path channel swap rx tx rx_position tx_position reciprocal rice_factor]. unfold couple, los_matrix. cbn [fst snd]. rewrite Hz. split; [ring|].
    replace (RtoC (-1)) with (- RtoC 1)%C by (rewrite <- RtoC_opp; reflexivity). ring.
Qed.
Print Assumptions C110_reciprocity_refuted.

(** Antenna patterns are evaluated towards a point at a distance of one metre from the origin of the scene, not towards the direction of a ray.
    For arrays at the origin that is the same; arrays farther than a metre away see all rays in the half space facing the origin *)
Theorem C110_directions_refuted : forall arr azimuth zenith m,
  (translation (base arr) = V 0 0 0 ->
   characteristics arr (Location (From_Spherical azimuth zenith)) m Global = characteristics arr (Towards (From_Spherical azimuth zenith)) m Global) /\
  (1 < norm (translation (base arr)) ->
   exists d, norm d = 1 /\ dot d (translation (base arr)) < 0 /\
   characteristics arr (Location (From_Spherical azimuth zenith)) m Global = characteristics arr (Towards d) m Global).
Proof.
  intros arr azimuth zenith m. set (u := From_Spherical azimuth zenith). set (P := translation (base arr)).
  assert (Hu : dot u u = 1).
  { unfold u, From_Spherical, dot. cbn [vx vy vz]. pose proof (sin2_cos2 azimuth) as A. pose proof (sin2_cos2 zenith) as B. unfold Rsqr in *.
    transitivity (sin zenith * sin zenith * (sin azimuth * sin azimuth + cos azimuth * cos azimuth) + cos zenith * cos zenith); [ring|]. rewrite A. lra. }
  split.
  - intros HP. unfold characteristics. fold P. rewrite HP. replace (vsub u (V 0 0 0)) with u by (destruct u as [u1 u2 u3]; unfold vsub; cbn; f_equal; ring).
    unfold from_cartesian, norm. rewrite Hu, sqrt_1. destruct (Req_EM_T 1 0) as [H|_]; [lra|]. cbn [bind]. replace (vscale (/ 1) u) with u; [reflexivity|].
    destruct u as [u1 u2 u3]. unfold vscale. cbn [vx vy vz]. rewrite Rinv_1. f_equal; ring.
  - intros HP. assert (H2 : 1 < dot P P).
    { unfold norm in HP. destruct (Rlt_dec 1 (dot P P)) as [H|H]; [exact H|]. exfalso. apply Rnot_lt_le in H. apply sqrt_le_1_alt in H. rewrite sqrt_1 in H. lra. }
    assert (CS : dot u P * dot u P <= dot P P).
    { rewrite <- (Rmult_1_l (dot P P)), <- Hu. destruct u as [a b c], P as [p q r]. unfold dot. cbn [vx vy vz].
      pose proof (pow2_ge_0 (a * q - b * p)). pose proof (pow2_ge_0 (b * r - c * q)). pose proof (pow2_ge_0 (a * r - c * p)). nra. }
    assert (Hlt : dot u P < dot P P) by nra.
    assert (Hw : dot (vsub u P) P < 0) by (replace (dot (vsub u P) P) with (dot u P - dot P P) by (unfold dot, vsub; cbn [vx vy vz]; ring); lra).
    assert (Hn : 0 < dot (vsub u P) (vsub u P)).
    { replace (dot (vsub u P) (vsub u P)) with (dot u u - 2 * dot u P + dot P P) by (unfold dot, vsub; cbn [vx vy vz]; ring). rewrite Hu. nra. }
    assert (Hs : 0 < norm (vsub u P)) by (apply sqrt_lt_R0, Hn).
    exists (vscale (/ norm (vsub u P)) (vsub u P)). split; [|split].
    + unfold norm at 1. set (w := vsub u P) in *. replace (dot (vscale (/ norm w) w) (vscale (/ norm w) w)) with (dot w w * (/ norm w * / norm w)) by (unfold dot, vscale; cbn [vx vy vz]; ring).
      assert (Es : norm w * norm w = dot w w) by (apply sqrt_sqrt; lra). rewrite <- Es. replace (_ * _) with 1 by (field; lra). apply sqrt_1.
    + set (w := vsub u P) in *. assert (Ed : dot (vscale (/ norm w) w) P = / norm w * dot w P) by (set (i := / norm w); unfold dot, vscale; cbn [vx vy vz]; ring). rewrite Ed.
      pose proof (Rinv_0_lt_compat _ Hs). nra.
    + unfold characteristics. fold P. unfold from_cartesian. destruct (Req_EM_T (norm (vsub u P)) 0) as [H|_]; [lra|]. reflexivity.
Qed.
Print Assumptions C110_directions_refuted.
Example C110_directions_met : forall a, 1 < norm (translation (base (mkArray (mkT a (V 2 0 0)) []))).
Proof. intros a. unfold norm, dot. cbn [base translation vx vy vz]. rewrite <- sqrt_1 at 1. apply sqrt_lt_1_alt. lra. Qed.

Example C110_met : valid (simple true 1 straight) (siso up up (V (1 / 2) 0 0)) /\ streams (Blk 1 2 0 (fun _ _ => RtoC 1)) = n_tx (siso up up (V (1 / 2) 0 0)).
Proof. split; [apply siso_valid|reflexivity]. Qed.
