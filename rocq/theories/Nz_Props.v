(** Properties of noise at receivers (C105) and of oscillator phase noise (C106). *)
From Coq Require Import List Reals ZArith Bool Arith Lra Lia.
From Coquelicot Require Import Complex.
From Verif Require Import Base BaseLemmas Cplx Cplx_Proofs Chan_Model Chan_Spec Chan_Proofs Nz_Model Nz_Spec Nz_Proofs.
Import ListNotations.
Open Scope R_scope.

(** ** Four equally likely draws of a single complex number: 1+j, 1-j, -1+j, -1-j *)
Definition quadrants (w i a : nat) : C :=
  match w with 0%nat => (1, 1) | 1%nat => (1, -1) | 2%nat => (-1, 1) | _ => (-1, -1) end.
Lemma quadrants_white : white 4 1 1 quadrants.
Proof.
  split; [lia|]. split; intros; replace i with 0%nat by lia; replace a with 0%nat by lia.
  - unfold mean. cbn [rsum quadrants fst snd]. split; cbn; lra.
  - replace j with 0%nat by lia. replace b with 0%nat by lia. unfold mean. cbn [rsum quadrants fst snd Nat.eqb andb]. repeat split; cbn; lra.
Qed.
(** Sixteen draws of two complex numbers *)
Definition quadrants2 (w i a : nat) : C := match (i + a)%nat with 0%nat => quadrants (w / 4) 0 0 | _ => quadrants (w mod 4) 0 0 end.
Lemma quadrants2_white : white 16 2 1 quadrants2.
Proof.
  split; [lia|]. split; intros; replace a with 0%nat by lia.
  - assert (I : i = 0%nat \/ i = 1%nat) by lia. unfold mean. destruct I as [-> | ->]; cbn; split; lra.
  - replace b with 0%nat by lia. assert (I : i = 0%nat \/ i = 1%nat) by lia. assert (J : j = 0%nat \/ j = 1%nat) by lia. unfold mean.
    destruct I as [-> | ->], J as [-> | ->]; cbn; repeat split; lra.
Qed.
Lemma half_square : forall power, 0 <= power -> sqrt (power / 2) * sqrt (power / 2) * 2 = power.
Proof. intros power H. rewrite sqrt_sqrt by lra. field. Qed.

(** ** C105: noise at receivers *)
(** Noise of the configured power: the mean power of what is added to every sample is that of the realization, and adds to the power of the sample *)
Theorem C105_noise_power : forall n power u d b before, white n (streams b) (samples b) u -> offset b = 0%nat -> 0 < power ->
  exists y, (forall w, add_to power (fun _ _ => u w) (Dense d b) before = Ok (Dense d (y w), power)) /\
  (forall w, streams (y w) = streams b /\ samples (y w) = samples b) /\
  forall i a, (i < streams b)%nat -> (a < samples b)%nat ->
    mean n (fun w => sq (x (y w) i a - x b i a)%C) = power /\ mean n (fun w => sq (x (y w) i a)) = sq (x b i a) + power.
Proof.
  intros n power u d b before W O P.
  assert (E : exists y, forall w, add_to power (fun _ _ => u w) (Dense d b) before = Ok (Dense d (y w), power) /\ streams (y w) = streams b /\ samples (y w) = samples b /\
    forall i a, (i < streams b)%nat -> (a < samples b)%nat -> x (y w) i a = (x b i a + RtoC (sqrt (power / 2)) * u w i a)%C).
  { exists (fun w => match add_to power (fun _ _ => u w) (Dense d b) before with Ok (Dense _ y, _) => y | _ => b end). intro w.
    destruct (add_to_dense power (fun _ _ => u w) d b before O P) as [y [E [S1 [S2 [_ V]]]]]. rewrite E. repeat split; assumption. }
  destruct E as [y Y]. exists y. split; [intro w; apply Y|]. split; [intro w; destruct (Y w) as [_ [? [? _]]]; split; assumption|].
  intros i a Hi Ha. pose proof W as [Hn [Z Q]]. destruct (Z i a Hi Ha) as [Z1 Z2]. destruct (Q i a i a Hi Ha Hi Ha) as [Q1 [Q2 _]]. rewrite !Nat.eqb_refl in Q1, Q2. cbn [andb] in Q1, Q2.
  assert (Pw : mean n (fun w => sq (RtoC (sqrt (power / 2)) * u w i a)%C) = power).
  { rewrite (mean_ext n _ (fun w => sqrt (power / 2) * sqrt (power / 2) * (fst (u w i a) * fst (u w i a) + snd (u w i a) * snd (u w i a)))) by (intros; rewrite sq_mult, sq_R; reflexivity).
    rewrite mean_scal, mean_plus, Q1, Q2. rewrite <- (half_square power) at 3 by lra. ring. }
  split.
  - transitivity (mean n (fun w => sq (RtoC (sqrt (power / 2)) * u w i a)%C)); [|exact Pw]. apply mean_ext. intros w _. destruct (Y w) as [_ [_ [_ V]]]. rewrite V by assumption. f_equal. ring.
  - rewrite (mean_ext n _ (fun w => (sq (x b i a) + 2 * sqrt (power / 2) * fst (x b i a) * fst (u w i a) + 2 * sqrt (power / 2) * snd (x b i a) * snd (u w i a)) + sq (RtoC (sqrt (power / 2)) * u w i a)%C)).
    2:{ intros w _. destruct (Y w) as [_ [_ [_ V]]]. rewrite V by assumption. unfold sq. destruct (x b i a), (u w i a). cbn. ring. }
    rewrite mean_plus, Pw, mean_plus, mean_plus, mean_scal, mean_scal, Z1, Z2, mean_const by exact Hn. ring.
Qed.
Print Assumptions C105_noise_power.
Example C105_noise_power_met : white 4 1 1 quadrants /\ offset (Blk 1 1 0 (fun _ _ => RtoC 3)) = 0%nat /\ 0 < 2.
Proof. split; [exact quadrants_white|]. split; [reflexivity|lra]. Qed.

(** Noise is added to signals of several blocks only if each of them has as many samples as the whole signal; the second of two
    non-empty blocks after another never has.  A single block must start at once *)
Theorem C105_sparse : forall power draw d l before, 0 < power -> (forall b, In b l -> streams b = num_streams (Sparse d l)) ->
  ((exists y, add_to power draw (Sparse d l) before = Ok (y, power)) <-> (last_end l = 1%nat \/ forall b, In b l -> samples b = last_end l)) /\
  ((forall y, add_to power draw (Sparse d l) before <> Ok (y, power)) -> add_to power draw (Sparse d l) before = Raise ValueError).
Proof.
  intros power draw d l before P St. unfold add_to. destruct (Rlt_dec power 0) as [?|_]; [lra|]. destruct (Req_EM_T power 0) as [?|_]; [lra|].
  set (rows := num_streams (Sparse d l)) in *. unfold num_samples. cbn [blocks]. set (N := last_end l).
  assert (G : forall m, (forall b, In b m -> streams b = rows) ->
     (exists k, mapM (add_array rows N (fun i n => (RtoC (sqrt (power / 2)) * draw rows N i n)%C)) m = Ok k /\ (N = 1%nat \/ forall b, In b m -> samples b = N)) \/
     (mapM (add_array rows N (fun i n => (RtoC (sqrt (power / 2)) * draw rows N i n)%C)) m = Raise ValueError /\ ~ (N = 1%nat \/ forall b, In b m -> samples b = N))).
  { induction m as [|b m IH]; intro Sm; [left; exists []; split; [reflexivity|right; intros b []]|]. cbn [mapM]. unfold add_array at 1 3. rewrite (Sm b (or_introl eq_refl)), Nat.eqb_refl. cbn [orb andb].
    destruct (Nat.eqb_spec N (samples b)) as [E|E]; [|destruct (Nat.eqb_spec N 1) as [E1|E1]]; cbn [orb bind].
    - destruct IH as [[k [Ek C]]|[Ek C]]; [intros; apply Sm; right; assumption| |]; rewrite Ek; cbn [bind].
      + left. eexists. split; [reflexivity|]. destruct C as [C|C]; [left; exact C|right]. intros c [<-|Hc]; [congruence|apply C, Hc].
      + right. split; [reflexivity|]. intros [H|H]; apply C; [left; exact H|right; intros; apply H; right; assumption].
    - destruct IH as [[k [Ek C]]|[Ek C]]; [intros; apply Sm; right; assumption| |]; rewrite Ek; cbn [bind].
      + left. eexists. split; [reflexivity|]. left. exact E1.
      + exfalso. apply C. left. exact E1.
    - right. split; [reflexivity|]. intros [H|H]; [contradiction|]. apply E. symmetry. apply H. left. reflexivity. }
  destruct (G l St) as [[k [Ek C]]|[Ek C]]; rewrite Ek; cbn [bind]; split.
  - split; [intros _; exact C|intros _; eexists; reflexivity].
  - intro H. exfalso. exact (H _ eq_refl).
  - split; [intros [y H]; discriminate|intro H; contradiction].
  - reflexivity.
Qed.
Print Assumptions C105_sparse.
Theorem C105_several_blocks_refuted : forall power draw d a b before, 0 < power -> streams a = streams b -> (0 < samples a)%nat -> (0 < samples b)%nat ->
  (offset a + samples a <= offset b)%nat -> add_to power draw (Sparse d [a; b]) before = Raise ValueError.
Proof.
  intros power draw d a b before P S1 Ha Hb O. destruct (C105_sparse power draw d [a; b] before P) as [I R].
  - intros c [<-|[<-|[]]]; cbn [num_streams blocks]; congruence.
  - apply R. intros y E. destruct (proj1 I (ex_intro _ y E)) as [H|H].
    + unfold last_end in H. cbn in H. lia.
    + specialize (H b (or_intror (or_introl eq_refl))). unfold last_end in H. cbn in H. lia.
Qed.
Print Assumptions C105_several_blocks_refuted.
Example C105_several_blocks_met : add_to 1 (fun _ _ _ _ => RtoC 0) (Sparse 0 [Blk 1 2 0 (fun _ _ => RtoC 1); Blk 1 2 5 (fun _ _ => RtoC 1)]) 0 = Raise ValueError.
Proof. apply C105_several_blocks_refuted; cbn; try lia; lra. Qed.

(** All receivers of a device see the same noise: equal selections of ports get equal inputs, and the samples of a port are the same for all receivers *)
Theorem C105_receivers_share : forall power draw decoder receivers b l, offset b = 0%nat -> 0 <= power -> receiver_inputs power draw decoder receivers b = Ok l ->
  forall i j p q r s y z, nth_error receivers i = Some p -> nth_error receivers j = Some q -> nth_error l i = Some y -> nth_error l j = Some z ->
  (match p with None => r | Some ports => nth r ports 0%nat end = match q with None => s | Some ports => nth s ports 0%nat end) ->
  forall n, x (fst y) r n = x (fst z) s n.
Proof.
  intros power draw decoder receivers b l O P E i j p q r s y z Hi Hj Hy Hz K n. unfold receiver_inputs in E.
  assert (G : forall i p y, nth_error receivers i = Some p -> nth_error l i = Some y -> receiver_input power draw decoder p b = Ok y).
  { clear - E. revert l E. induction receivers as [|a receivers IH]; intros l E i p y H1 H2; [destruct i; discriminate|]. cbn [mapM] in E. apply bind_ok in E as [v [Ev E]]. apply bind_ok in E as [vs [Es E]]. injection E as <-.
    destruct i as [|i]; cbn [nth_error] in *; [congruence|]. exact (IH vs Es i p y H1 H2). }
  apply (G i p y Hi) in Hy. apply (G j q z Hj) in Hz. unfold receiver_input in Hy, Hz. apply bind_ok in Hy as [[v f] [Ev Hy]]. rewrite Ev in Hz. cbn [bind] in Hz.
  apply bind_ok in Hy as [y' [Sy Hy]]. apply bind_ok in Hz as [z' [Sz Hz]]. injection Hy as <-. injection Hz as <-. cbn [fst].
  set (B := decode decoder (hd b (blocks v))) in *.
  assert (V : forall ports r c, select_ports ports B = Ok c -> x c r n = x B (match ports with None => r | Some ports => nth r ports 0%nat end) n).
  { intros [ports|] r' c H; cbn [select_ports] in H; [destruct (forallb _ _); [|discriminate]; injection H as <-; reflexivity|injection H as <-; reflexivity]. }
  rewrite (V p r y' Sy), (V q s z' Sz), K. reflexivity.
Qed.
Print Assumptions C105_receivers_share.
(** so that noise of different receivers is not independent: its mean product is the whole noise power *)
Theorem C105_independent_refuted : forall n power u b, white n (streams b) (samples b) u -> offset b = 0%nat -> 0 < power -> forall i a, (i < streams b)%nat -> (a < samples b)%nat ->
  exists y z, (forall w, receiver_inputs power (fun _ _ => u w) None [None; None] b = Ok [(y w, power); (z w, power)]) /\
  csum (fun w => (x (y w) i a - x b i a) * conj (x (z w) i a - x b i a))%C n = RtoC (INR n * power).
Proof.
  intros n power u b W O P i a Hi Ha.
  assert (E : exists y, forall w, receiver_inputs power (fun _ _ => u w) None [None; None] b = Ok [(y w, power); (y w, power)] /\ x (y w) i a = (x b i a + RtoC (sqrt (power / 2)) * u w i a)%C).
  { exists (fun w => match add_to power (fun _ _ => u w) (Dense 0 b) 0 with Ok (Dense _ y, _) => y | _ => b end). intro w.
    destruct (add_to_dense power (fun _ _ => u w) 0 b 0 O P) as [y [E [S1 [S2 [_ V]]]]]. unfold receiver_inputs, receiver_input. cbn [mapM]. rewrite E. cbn [bind blocks hd decode select_ports].
    split; [reflexivity|]. apply V; assumption. }
  destruct E as [y Y]. exists y, y. split; [intro w; apply Y|].
  rewrite (csum_ext _ (fun w => RtoC (power / 2) * (u w i a * conj (u w i a)))%C).
  - rewrite csum_scal. pose proof (white_csum n _ _ u W (i, a) (i, a) Hi Ha Hi Ha) as Q. cbn [fst snd] in Q. rewrite Q. destruct (eq_pair (i, a) (i, a)); [|congruence]. rewrite <- RtoC_mult. f_equal. field.
  - intros w _. destruct (Y w) as [_ V]. rewrite V. replace (x b i a + RtoC (sqrt (power / 2)) * u w i a - x b i a)%C with (RtoC (sqrt (power / 2)) * u w i a)%C by ring.
    rewrite conj_mult, conj_R. replace (RtoC (power / 2)) with (RtoC (sqrt (power / 2)) * RtoC (sqrt (power / 2)))%C by (rewrite <- RtoC_mult, sqrt_sqrt by lra; reflexivity). ring.
Qed.
Print Assumptions C105_independent_refuted.

(** Decoding changes the power of the noise by the squared weights of a stream, the noise power reported with the input is that before decoding:
    they agree exactly for weights of unit norm *)
Theorem C105_decoded : forall n power u b k v r a, white n (streams b) (samples b) u -> offset b = 0%nat -> 0 < power -> (r < k)%nat -> (a < samples b)%nat ->
  exists y, (forall w, receiver_input power (fun _ _ => u w) (Some (k, v)) None b = Ok (y w, power)) /\
  mean n (fun w => sq (x (y w) r a - csum (fun i => v r i * x b i a) (streams b))%C) = power * rsum (fun i => sq (v r i)) (streams b).
Proof.
  intros n power u b k v r a W O P Hr Ha.
  assert (E : exists y, forall w, receiver_input power (fun _ _ => u w) (Some (k, v)) None b = Ok (y w, power) /\
     x (y w) r a = csum (fun i => v r i * (x b i a + RtoC (sqrt (power / 2)) * u w i a))%C (streams b)).
  { exists (fun w => match receiver_input power (fun _ _ => u w) (Some (k, v)) None b with Ok (y, _) => y | _ => b end). intro w.
    destruct (add_to_dense power (fun _ _ => u w) 0 b 0 O P) as [y [E [S1 [S2 [_ V]]]]]. unfold receiver_input. rewrite E. cbn [bind blocks hd decode select_ports x streams].
    split; [reflexivity|]. rewrite S1. apply csum_ext. intros i Hi. rewrite V by assumption. reflexivity. }
  destruct E as [y Y]. exists y. split; [intro w; apply Y|].
  rewrite (mean_ext n _ (fun w => sq (csum (fun i => (v r i * RtoC (sqrt (power / 2))) * u w i a)%C (streams b)))).
  - etransitivity; [apply (mean_family n (streams b) (samples b) u (streams b) (fun i => (i, a)) (fun i => v r i * RtoC (sqrt (power / 2)))%C W)|].
    + intros i j _ _ E. congruence.
    + intros i Hi. split; [exact Hi|exact Ha].
    + rewrite (rsum_ext _ (fun i => sqrt (power / 2) * sqrt (power / 2) * sq (v r i))) by (intros; rewrite sq_mult, sq_R; ring). rewrite rsum_scal, sqrt_sqrt by lra. field.
  - intros w _. destruct (Y w) as [_ ->]. f_equal. rewrite (csum_ext (fun i => v r i * (x b i a + RtoC (sqrt (power / 2)) * u w i a))%C (fun i => v r i * x b i a + v r i * RtoC (sqrt (power / 2)) * u w i a)%C) by (intros; ring).
    rewrite csum_plus. ring.
Qed.
Print Assumptions C105_decoded.
(** Averaging two antennas halves the noise, which is reported twice as strong as it is *)
Theorem C105_reported_power_refuted : exists n u b v y, white n (streams b) (samples b) u /\
  (forall w, receiver_input 1 (fun _ _ => u w) (Some (1%nat, v)) None b = Ok (y w, 1)) /\
  mean n (fun w => sq (x (y w) 0%nat 0%nat - csum (fun i => v 0%nat i * x b i 0%nat) (streams b))%C) = / 2.
Proof.
  exists 16%nat, quadrants2, (Blk 2 1 0 (fun _ _ => RtoC 1)), (fun _ _ => RtoC (/ 2)).
  destruct (C105_decoded 16 1 quadrants2 (Blk 2 1 0 (fun _ _ => RtoC 1)) 1 (fun _ _ => RtoC (/ 2)) 0 0 quadrants2_white eq_refl Rlt_0_1 (Nat.lt_0_succ 0) (Nat.lt_0_succ 0)) as [y [E M]].
  exists y. split; [exact quadrants2_white|]. split; [exact E|]. rewrite M. cbn [streams rsum]. rewrite !sq_R. field.
Qed.
Print Assumptions C105_reported_power_refuted.

(** ** Signal to noise ratios behind channels *)
(** Ideal channels scale the energy of a single transmitted stream, or of each of equally many streams, by the announced factor, so that the received
    power exceeds the noise by exactly the configured ratio if the reference power is that of the transmitted stream *)
Theorem C105_ideal_snr : forall gain nr nt s r snr, 0 < gain -> 0 < snr -> (r < nr)%nat -> streams s = nt -> (nt = 1 \/ nt = nr)%nat ->
  let t := if Nat.eqb nt 1 then 0%nat else r in let y := fst (ideal_propagate gain nr nt s) in
  samples y = samples s /\ energy y r = ideal_scale gain * energy s t /\
  (0 < energy s t -> energy y r / INR (samples y) / snr_power snr (energy s t / INR (samples s)) (ideal_scale gain) = snr).
Proof.
  intros gain nr nt s r snr G Sn Hr Hs C t y.
  assert (Sy : samples y = samples s) by apply ideal_dimensions.
  assert (V : forall j, (j < samples s)%nat -> x y r j = (x s t j * RtoC (sqrt gain))%C).
  { intros j Hj. unfold y, ideal_propagate, t. destruct (Nat.eqb_spec nt 1) as [E|E]; [reflexivity|]. destruct C as [C|C]; [contradiction|]. subst nr.
    replace (Nat.eqb nt 1) with false by (symmetry; apply Nat.eqb_neq; exact E). destruct (Nat.eqb_spec nt 0); [lia|]. rewrite Nat.ltb_irrefl. reflexivity. }
  assert (En : energy y r = ideal_scale gain * energy s t).
  { unfold energy, ideal_scale. rewrite Sy, <- rsum_scal. apply rsum_ext. intros j Hj. rewrite V by exact Hj. rewrite sq_mult, sq_R, sqrt_sqrt by lra. ring. }
  split; [exact Sy|]. split; [exact En|]. intro Pe. rewrite Sy, En. unfold snr_power, ideal_scale. field.
  split; [|split; lra]. intro Z. assert (samples s = 0%nat) by (apply INR_eq; rewrite Z; reflexivity). unfold energy in Pe. rewrite H in Pe. cbn in Pe. lra.
Qed.
Print Assumptions C105_ideal_snr.
Example C105_ideal_snr_met : 0 < / 4 /\ 0 < 10 /\ streams (Blk 1 3 0 (fun _ _ => RtoC 1)) = 1%nat /\ 0 < energy (Blk 1 3 0 (fun _ _ => RtoC 1)) 0.
Proof. repeat split; try lra. unfold energy, sq. cbn. lra. Qed.
(** Several streams received by one antenna add up: two equal ones are received with twice the power the reference accounts for *)
Theorem C105_ideal_streams_refuted : exists s snr, streams s = 2%nat /\ 0 < snr /\
  let y := fst (ideal_propagate 1 1 2 s) in
  energy y 0 / INR (samples y) / snr_power snr ((energy s 0 + energy s 1) / INR (samples s)) (ideal_scale 1) = 2 * snr.
Proof.
  exists (Blk 2 1 0 (fun _ _ => RtoC 1)), 1. split; [reflexivity|]. split; [lra|]. cbv zeta. unfold energy, snr_power, ideal_scale, sq. cbn. rewrite sqrt_1. field.
Qed.
Print Assumptions C105_ideal_streams_refuted.
(** Delay channels announce the factor of amplitudes, the energy is scaled by its square.  With the path gain g the ratio is off by g *)
Theorem C105_delay_snr : forall c s r snr, streams s = 1%nat -> (r < d_rx c)%nat -> 0 < snr -> 0 < d_gain c ->
  let y := delay_propagate c s in
  energy y r = (delay_scale c * delay_scale c) * sq (d_response c r 0%nat) * energy s 0 /\
  (sq (d_response c r 0%nat) = 1 -> 0 < energy s 0 ->
   energy y r / INR (samples s) / snr_power snr (energy s 0 / INR (samples s)) (delay_scale c) = snr * d_gain c).
Proof.
  intros c s r snr Hs Hr Sn G y. set (d := in_samples (d_delay c) (d_bandwidth c)).
  assert (En : energy y r = (delay_scale c * delay_scale c) * sq (d_response c r 0%nat) * energy s 0).
  { unfold energy, y, delay_propagate. cbn [samples x]. fold d.
    rewrite (rsum_ext _ (fun j => if (Nat.leb d j && Nat.ltb j (d + samples s))%bool then delay_scale c * delay_scale c * sq (d_response c r 0%nat) * sq (x s 0%nat (j - d)%nat) else 0)).
    - rewrite (shifted_energy (fun i => delay_scale c * delay_scale c * sq (d_response c r 0%nat) * sq (x s 0%nat i))) by lia. rewrite rsum_scal. reflexivity.
    - intros j Hj. destruct (Nat.ltb_spec j d) as [L|L].
      + destruct (Nat.leb_spec d j); [lia|]. cbn [andb]. unfold sq. cbn. ring.
      + destruct (Nat.leb_spec d j); [|lia]. destruct (Nat.ltb_spec j (d + samples s)); [|lia]. cbn [andb]. rewrite Hs. cbn [csum]. rewrite Cplus_0_l, !sq_mult, sq_R. unfold delay_scale. ring. }
  split; [exact En|]. intros U Pe. rewrite En, U. unfold snr_power, delay_scale.
  assert (N0 : INR (samples s) <> 0). { intro Z. assert (samples s = 0%nat) by (apply INR_eq; rewrite Z; reflexivity). unfold energy in Pe. rewrite H in Pe. cbn in Pe. lra. }
  field. repeat split; try lra; try assumption.
Qed.
Print Assumptions C105_delay_snr.
Theorem C105_delay_snr_refuted : ~ (forall c s r snr, streams s = 1%nat -> (r < d_rx c)%nat -> 0 < snr -> 0 < d_gain c -> sq (d_response c r 0%nat) = 1 -> 0 < energy s 0 ->
  energy (delay_propagate c s) r / INR (samples s) / snr_power snr (energy s 0 / INR (samples s)) (delay_scale c) = snr).
Proof.
  intro H. set (c := Delay 1 1 0 1 (/ 2) (fun _ _ => RtoC 1)). set (s := Blk 1 1 0 (fun _ _ => RtoC 1)).
  assert (U : sq (d_response c 0%nat 0%nat) = 1) by (unfold sq; cbn; ring). assert (Pe : 0 < energy s 0) by (unfold energy, sq; cbn; lra).
  specialize (H c s 0%nat 1 eq_refl (Nat.lt_0_succ 0) Rlt_0_1 ltac:(cbn; lra) U Pe).
  destruct (C105_delay_snr c s 0 1 eq_refl (Nat.lt_0_succ 0) Rlt_0_1 ltac:(cbn; lra)) as [_ E]. rewrite (E U Pe) in H. cbn in H. lra.
Qed.
Print Assumptions C105_delay_snr_refuted.
(** The mean energy received over fading channels with uncorrelated rays is the announced multiple of the transmitted energy *)
Theorem C105_fading_energy : forall n c c0 s, scattered n c c0 -> 0 <= f_bandwidth c0 -> streams s = 1%nat -> 0 <= f_gain c0 ->
  (forall p, In p (paths c0) -> 0 <= power p /\ unit_power p) ->
  exists y, (forall w, (w < n)%nat -> fading_propagate (c w) s = Ok (y w)) /\ mean n (fun w => energy (y w) 0) = fading_scale c0 * energy s 0.
Proof. exact fading_mean. Qed.
Print Assumptions C105_fading_energy.
(** Two equally likely samples of a path with a diffuse ray of phase 0 or pi and a specular ray *)
Definition example_path (ph : R) : path := Path 0 1 (sqrt (/ 2)) (sqrt (/ 2)) 0 0 [(0, ph)].
Definition example_fading (w : nat) : fading_sample := Fading 1 1 1 1 1 2 0 0 [example_path (match w with 0%nat => 0 | _ => PI end)] (fun _ _ => RtoC 1).
Example C105_fading_energy_met : scattered 2 example_fading (example_fading 0) /\ (forall p, In p (paths (example_fading 0)) -> 0 <= power p /\ unit_power p).
Proof.
  split.
  - split; [lia|]. split.
    + intros w _. repeat (split; [reflexivity|]). intros a Ha. destruct a as [|a]; [|cbn in Ha; lia]. repeat split.
    + intros a b k l i j Ha Hb Hk Hl Ne. destruct a as [|a]; [|cbn in Ha; lia]. destruct b as [|b]; [|cbn in Hb; lia]. cbn [example_fading example_path paths nth nlos length] in *.
      assert (K : (k = 0 /\ l = 1)%nat \/ (k = 1 /\ l = 0)%nat). { destruct k as [|[|k]], l as [|[|l]]; try lia; exfalso; apply Ne; reflexivity. }
      cbn [csum]. unfold ray. cbn [nlos example_path length los_doppler nlos_doppler los_phase los_angle example_fading paths nth].
      destruct K as [[-> ->]|[-> ->]]; cbn [Nat.ltb Nat.leb nth]; rewrite !Rmult_0_l, !Rplus_0_l; unfold cis, conj; rewrite ?cos_0, ?sin_0, ?cos_PI, ?sin_PI; apply injective_projections; cbn; ring.
  - intros p [<-|[]]. cbn. split; [lra|]. unfold unit_power. cbn. rewrite sqrt_sqrt; lra.
Qed.

(** ** Communication noise levels *)
(** Levels are positive; a noise level of a modem without waveform cannot be evaluated; the ratio of energy to noise power is the level, and levels per bit
    and per symbol differ by the number of bits per symbol *)
Theorem C105_comm_levels : forall k r v w bandwidth, 0 < v -> reference_waveform r = Ok w -> 0 < symbol_energy w bandwidth 1 -> (0 < bits_per_symbol w)%nat ->
  exists ps pb, comm_power (Comm EsN0 r v) bandwidth = Ok ps /\ comm_power (Comm EbN0 r v) bandwidth = Ok pb /\
  symbol_energy w bandwidth 1 / ps = v /\ bit_energy w bandwidth 1 / pb = v /\ ps = INR (bits_per_symbol w) * pb /\
  comm_power (Comm EsN0 r (INR (bits_per_symbol w) * v)) bandwidth = Ok pb /\
  (forall f, 0 < f -> comm_power (Comm k r (f * v)) bandwidth = Ok ((match k with EbN0 => pb | EsN0 => ps end) / f)) /\
  set_comm (Comm k r 1) v = Ok (Comm k r v).
Proof.
  intros k r v w bandwidth V R E B. assert (Nb : INR (bits_per_symbol w) <> 0) by (apply not_0_INR; lia). unfold comm_power, bit_energy. cbn [kind ref lev]. rewrite R. cbn [bind]. eexists. eexists. split; [reflexivity|]. split; [reflexivity|].
  split; [field; lra|]. split; [field; lra|]. split; [field; lra|]. split; [f_equal; field; lra|]. split.
  - intros f F. destruct k; f_equal; field; repeat split; try lra.
  - unfold set_comm. destruct (Rle_dec v 0); [lra|reflexivity].
Qed.
Print Assumptions C105_comm_levels.
Example C105_comm_levels_met : exists w, reference_waveform (OfModem (Some (SingleCarrier 2))) = Ok w /\ 0 < symbol_energy w 1 1 /\ (0 < bits_per_symbol w)%nat.
Proof. eexists. split; [reflexivity|]. cbn. split; [lra|lia]. Qed.
Theorem C105_comm_refused : (forall l v, v <= 0 -> set_comm l v = Raise ValueError) /\ (forall k v bandwidth, comm_power (Comm k (OfModem None) v) bandwidth = Raise RuntimeError).
Proof. split; [|reflexivity]. intros l v H. unfold set_comm. destruct (Rle_dec v 0); [reflexivity|lra]. Qed.
Print Assumptions C105_comm_refused.
(** Noise powers are those of critically sampled signals.  At receivers averaging [o] samples of rectangular pulses the realized ratio of symbol energy and noise
    is the configured one times the oversampling factor *)
Theorem C105_oversampling : forall n o b bits k level bandwidth u p symbols, (0 < o)%nat -> white n 1 (samples b) u -> 0 < level -> (k * o + o <= samples b)%nat ->
  streams b = 1%nat -> offset b = 0%nat -> (forall a, x b 0%nat a = held o symbols a) ->
  comm_power (Comm EsN0 (OfWaveform (SingleCarrier bits)) level) bandwidth = Ok p ->
  exists y, (forall w, receiver_input p (fun _ _ => u w) None None b = Ok (y w, p)) /\
  averaged o (x b 0%nat) k = symbols k /\
  1 / mean n (fun w => sq (averaged o (x (y w) 0%nat) k - symbols k)%C) = INR o * level.
Proof.
  intros n o b bits k level bandwidth u p symbols Ho W L R St Of H Ep. unfold comm_power in Ep. cbn in Ep. injection Ep as <-. set (p := 1 / level). assert (P : 0 < p) by (unfold p; apply Rdiv_lt_0_compat; lra).
  assert (No : INR o <> 0) by (apply not_0_INR; lia).
  assert (E : exists y, forall w, receiver_input p (fun _ _ => u w) None None b = Ok (y w, p) /\ forall a, (a < samples b)%nat -> x (y w) 0%nat a = (x b 0%nat a + RtoC (sqrt (p / 2)) * u w 0%nat a)%C).
  { exists (fun w => match receiver_input p (fun _ _ => u w) None None b with Ok (y, _) => y | _ => b end). intro w.
    destruct (add_to_dense p (fun _ _ => u w) 0 b 0 Of P) as [y [E [S1 [S2 [_ V]]]]]. unfold receiver_input. rewrite E. cbn [bind blocks hd decode select_ports].
    split; [reflexivity|]. intros a Ha. apply V; lia. }
  destruct E as [y Y]. exists y. split; [intro w; apply Y|].
  assert (A : averaged o (x b 0%nat) k = symbols k).
  { unfold averaged. rewrite (csum_ext _ (fun _ => symbols k)).
    - rewrite csum_const. field. intro Z. injection Z. exact No.
    - intros i Hi. rewrite H. unfold held. f_equal. rewrite Nat.add_comm, Nat.div_add by lia. rewrite Nat.div_small by exact Hi. reflexivity. }
  split; [exact A|].
  rewrite (mean_ext n _ (fun w => sq (csum (fun i => (RtoC (sqrt (p / 2)) / RtoC (INR o)) * u w 0%nat (k * o + i)%nat)%C o))).
  - assert (M : mean n (fun w => sq (csum (fun i => (RtoC (sqrt (p / 2)) / RtoC (INR o)) * u w 0%nat (k * o + i)%nat)%C o)) = 2 * rsum (fun _ => sq (RtoC (sqrt (p / 2)) / RtoC (INR o))%C) o).
    { apply (mean_family n 1 (samples b) u o (fun i => (0%nat, (k * o + i)%nat)) (fun _ => RtoC (sqrt (p / 2)) / RtoC (INR o))%C W).
      - intros i j Hi Hj E. injection E. lia.
      - intros i Hi. cbn [fst snd]. lia. }
    rewrite M, rsum_const. rewrite <- RtoC_div by exact No. rewrite sq_R. replace (sqrt (p / 2) / INR o * (sqrt (p / 2) / INR o)) with (sqrt (p / 2) * sqrt (p / 2) / (INR o * INR o)) by (field; exact No).
    rewrite sqrt_sqrt by lra. unfold p. field. split; [lra|exact No].
  - intros w _. destruct (Y w) as [_ V]. f_equal. rewrite <- A. unfold averaged.
    rewrite (csum_ext (fun i => x (y w) 0%nat (k * o + i)%nat) (fun i => x b 0%nat (k * o + i)%nat + RtoC (sqrt (p / 2)) * u w 0%nat (k * o + i)%nat)%C) by (intros i Hi; apply V; lia).
    rewrite csum_plus. rewrite !csum_scal. assert (RtoC (INR o) <> RtoC 0) by (intro Z; injection Z; exact No). field. assumption.
Qed.
Print Assumptions C105_oversampling.
Theorem C105_es_n0_refuted : exists n b u level p y, white n 1 (samples b) u /\ 0 < level /\ comm_power (Comm EsN0 (OfWaveform (SingleCarrier 1)) level) 1 = Ok p /\
  (forall a, x b 0%nat a = held 2 (fun _ => RtoC 1) a) /\ (forall w, receiver_input p (fun _ _ => u w) None None b = Ok (y w, p)) /\
  1 / mean n (fun w => sq (averaged 2 (x (y w) 0%nat) 0 - RtoC 1)%C) = 2 * level.
Proof.
  assert (W : white 16 1 2 quadrants2).
  { split; [lia|]. split; intros; replace i with 0%nat by lia.
    - assert (I : a = 0%nat \/ a = 1%nat) by lia. unfold mean. destruct I as [-> | ->]; cbn; split; lra.
    - replace j with 0%nat by lia. assert (I : a = 0%nat \/ a = 1%nat) by lia. assert (J : b = 0%nat \/ b = 1%nat) by lia. unfold mean.
      destruct I as [-> | ->], J as [-> | ->]; cbn; repeat split; lra. }
  destruct (C105_oversampling 16 2 (Blk 1 2 0 (fun _ _ => RtoC 1)) 1 0 1 1 quadrants2 (1 / 1) (fun _ => RtoC 1) ltac:(lia) W Rlt_0_1 ltac:(cbn; lia) eq_refl eq_refl ltac:(reflexivity) eq_refl) as [y [Y [_ M]]].
  exists 16%nat, (Blk 1 2 0 (fun _ _ => RtoC 1)), quadrants2, 1, (1 / 1), y. split; [exact W|]. split; [lra|]. split; [reflexivity|]. split; [reflexivity|]. split; [exact Y|]. exact M.
Qed.
Print Assumptions C105_es_n0_refuted.

(** ** C106: oscillator phase noise *)
Theorem C106_constants : forall a b c, (0 <= a /\ 0 <= b /\ 0 <= c -> oscillator_of a b c = Ok (Osc a b c)) /\ (a < 0 \/ b < 0 \/ c < 0 -> oscillator_of a b c = Raise ValueError).
Proof. intros a b c. unfold oscillator_of. destruct (Rlt_dec a 0), (Rlt_dec b 0), (Rlt_dec c 0); split; intro H; try reflexivity; lra. Qed.
Print Assumptions C106_constants.
(** Phase noise keeps dimensions, the magnitude of every sample and the energy of every stream *)
Theorem C106_magnitudes : forall o fs u0 u2 u3 b, let y := add_phase_noise o fs u0 u2 u3 b in
  streams y = streams b /\ samples y = samples b /\ (forall r n, sq (x y r n) = sq (x b r n)) /\ forall r, energy y r = energy b r.
Proof.
  intros o fs u0 u2 u3 b y. assert (Q : streams y = streams b /\ samples y = samples b /\ forall r n, sq (x y r n) = sq (x b r n)).
  { unfold y, add_phase_noise. destruct (Nat.eqb (streams b * samples b) 0); [repeat split|]. cbn [streams samples x]. repeat split. intros r n. rewrite sq_mult, sq_cis. ring. }
  destruct Q as [Q1 [Q2 Q3]]. repeat split; try assumption. intro r. unfold energy. rewrite Q2. apply rsum_ext. intros; apply Q3.
Qed.
Print Assumptions C106_magnitudes.
(** An oscillator without any noise constant leaves signals as they are *)
Theorem C106_silent : forall fs u0 u2 u3 b, 0 < fs -> let y := add_phase_noise (Osc 0 0 0) fs u0 u2 u3 b in forall r n, x y r n = x b r n.
Proof.
  intros fs u0 u2 u3 b F y r n. unfold y, add_phase_noise. destruct (Nat.eqb (streams b * samples b) 0); [reflexivity|]. cbn [x]. unfold phase, var0, var2, var3. cbn [k0 k2 k3].
  destruct (Rlt_dec 0 (0 / (1 / fs))) as [H|_]; [unfold Rdiv in H; lra|]. destruct (Rlt_dec 0 (4 * 0 * (1 / fs) * PI ^ 2)) as [H|_]; [lra|]. destruct (Rlt_dec 0 (8 * 0 * (1 / fs) ^ 2 * PI ^ 3)) as [H|_]; [lra|].
  rewrite !Rplus_0_l, cis_0. ring.
Qed.
Print Assumptions C106_silent.
(** The flicker filter has the transfer function (1 - z^-1)^(-3/2): applied twice it is the one of a threefold sum.  Its coefficients are positive, grow, and grow like a square root *)
Theorem C106_flicker_filter : forall n,
  rsum (fun k => coefficient k * coefficient (n - k)) (S n) = (INR n + 1) * (INR n + 2) / 2 /\
  0 < coefficient n /\ coefficient n < coefficient (S n) /\ INR n + 1 <= coefficient n ^ 2 <= 4 / 3 * INR n + 1.
Proof.
  intro n. split; [exact (square_closed n)|]. split; [apply coefficient_pos|]. split; [apply coefficient_grows|]. pose proof (coefficient_bounds n). cbn [pow]. rewrite Rmult_1_r. assumption.
Qed.
Print Assumptions C106_flicker_filter.
(** Mean square of the phase at the n-th sample: white noise, a random walk, and flicker noise *)
Theorem C106_variance : forall m len u0 u2 u3 o fs n, white_sequence m len u0 -> white_sequence m len u2 -> white_sequence m len u3 ->
  unrelated m len u0 u2 -> unrelated m len u0 u3 -> unrelated m len u2 u3 -> 0 < fs -> 0 <= k0 o -> 0 <= k2 o -> 0 <= k3 o -> (n < len)%nat ->
  mean m (fun w => phase o fs (u0 w) (u2 w) (u3 w) n ^ 2) =
    k0 o * fs + 4 * PI ^ 2 * k2 o * (INR (S n) / fs) + 8 * PI ^ 3 * k3 o / fs ^ 2 * rsum (fun k => coefficient k ^ 2) (S n).
Proof.
  intros m len u0 u2 u3 o fs n W0 W2 W3 N02 N03 N23 F K0 K2 K3 L.
  pose proof PI_RGT_0 as Pi.
  assert (V0 : 0 <= var0 o fs). { unfold var0. replace (k0 o / (1 / fs)) with (k0 o * fs) by (field; lra). apply Rmult_le_pos; lra. }
  assert (Vf : 0 <= 1 / fs) by (apply Rlt_le, Rdiv_lt_0_compat; lra).
  assert (V2 : 0 <= var2 o fs). { unfold var2. apply Rmult_le_pos; [|apply pow_le; lra]. apply Rmult_le_pos; [lra|exact Vf]. }
  assert (V3 : 0 <= var3 o fs). { unfold var3. apply Rmult_le_pos; [|apply pow_le; lra]. apply Rmult_le_pos; [lra|apply pow_le; exact Vf]. }
  assert (Z : forall v (f : R), 0 <= v -> (if Rlt_dec 0 v then sqrt v * f else 0) = sqrt v * f).
  { intros v f H. destruct (Rlt_dec 0 v); [reflexivity|]. replace v with 0 by lra. rewrite sqrt_0. ring. }
  assert (E : forall w, phase o fs (u0 w) (u2 w) (u3 w) n = rsum (fun k => (if Nat.eqb n k then sqrt (var0 o fs) else 0) * u0 w k) (S n) + rsum (fun k => sqrt (var2 o fs) * u2 w k) (S n) + rsum (fun k => (coefficient (n - k) * sqrt (var3 o fs)) * u3 w k) (S n)).
  { intro w. unfold phase. f_equal; [f_equal|].
    - rewrite (Z _ _ V0). rewrite (rsum_ext _ (fun k => if Nat.eqb n k then sqrt (var0 o fs) * u0 w k else 0)) by (intros k _; destruct (Nat.eqb n k); ring). symmetry. apply (rsum_delta (fun k => sqrt (var0 o fs) * u0 w k)). lia.
    - rewrite integrated_sum, rsum_scal. apply Z. exact V2.
    - rewrite filtered_sum. rewrite (rsum_ext _ (fun k => sqrt (var3 o fs) * (coefficient (n - k) * u3 w k))) by (intros; ring).
      rewrite (rsum_ext (fun k => coefficient (n - k) * sqrt (var3 o fs) * u3 w k) (fun k => sqrt (var3 o fs) * (coefficient (n - k) * u3 w k))) by (intros; ring). rewrite rsum_scal. apply Z. exact V3. }
  set (A := fun w => rsum (fun k => (if Nat.eqb n k then sqrt (var0 o fs) else 0) * u0 w k) (S n)) in *.
  set (B := fun w => rsum (fun k => sqrt (var2 o fs) * u2 w k) (S n)) in *.
  set (D := fun w => rsum (fun k => (coefficient (n - k) * sqrt (var3 o fs)) * u3 w k) (S n)) in *.
  rewrite (mean_ext m _ (fun w => (A w * A w + B w * B w + D w * D w) + 2 * (A w * B w + A w * D w + B w * D w))) by (intros w _; rewrite E; fold (A w) (B w) (D w); ring).
  rewrite mean_plus, mean_plus, mean_plus, mean_scal, mean_plus, mean_plus.
  unfold A, B, D. rewrite (mean_square_sum m len u0 W0 _ (S n) L).
  rewrite (mean_square_sum m len u2 W2 (fun _ => sqrt (var2 o fs)) (S n) L), (mean_square_sum m len u3 W3 (fun k => coefficient (n - k) * sqrt (var3 o fs)) (S n) L).
  rewrite (mean_cross_sum m len u0 u2 N02 _ (fun _ => sqrt (var2 o fs)) (S n) (S n) L L), (mean_cross_sum m len u0 u3 N03 _ (fun k => coefficient (n - k) * sqrt (var3 o fs)) (S n) (S n) L L), (mean_cross_sum m len u2 u3 N23 (fun _ => sqrt (var2 o fs)) (fun k => coefficient (n - k) * sqrt (var3 o fs)) (S n) (S n) L L).
  rewrite (rsum_ext _ (fun k => if Nat.eqb n k then sqrt (var0 o fs) * sqrt (var0 o fs) else 0)) by (intros k _; destruct (Nat.eqb n k); ring). rewrite (rsum_delta (fun _ => sqrt (var0 o fs) * sqrt (var0 o fs))) by lia.
  rewrite rsum_const. rewrite (rsum_ext (fun k => coefficient (n - k) * sqrt (var3 o fs) * (coefficient (n - k) * sqrt (var3 o fs))) (fun k => sqrt (var3 o fs) * sqrt (var3 o fs) * coefficient (n - k) ^ 2)) by (intros; ring).
  rewrite rsum_scal. rewrite !sqrt_sqrt by assumption.
  rewrite (rsum_rev (fun k => coefficient k ^ 2)). rewrite (rsum_ext (fun k => coefficient (S n - 1 - k) ^ 2) (fun k => coefficient (n - k) ^ 2)) by (intros; do 2 f_equal; lia).
  unfold var0, var2, var3. field. lra.
Qed.
Print Assumptions C106_variance.
(** so that the phase drifts: its mean square grows without bound if there is a random walk *)
Theorem C106_stationary_refuted : forall m o fs (bound : R), 0 < fs -> 0 <= k0 o -> 0 < k2 o -> 0 <= k3 o -> exists n0, forall n len u0 u2 u3, (n0 <= n < len)%nat ->
  white_sequence m len u0 -> white_sequence m len u2 -> white_sequence m len u3 -> unrelated m len u0 u2 -> unrelated m len u0 u3 -> unrelated m len u2 u3 ->
  bound < mean m (fun w => phase o fs (u0 w) (u2 w) (u3 w) n ^ 2).
Proof.
  intros m o fs bound F K0 K2 K3. pose proof PI_RGT_0 as Pi. assert (S0 : 0 < 4 * PI ^ 2 * k2 o / fs). { apply Rdiv_lt_0_compat; [|lra]. apply Rmult_lt_0_compat; [|exact K2]. apply Rmult_lt_0_compat; [lra|apply pow_lt; lra]. }
  assert (H' : forall r, exists n, INR n > r).
  { intro r. exists (Z.to_nat (up r)). destruct (archimed r) as [U _]. destruct (Z_le_gt_dec 0 (up r)) as [Q|Q].
    - rewrite INR_IZR_INZ, Z2Nat.id by exact Q. exact U.
    - apply Rge_gt_trans with 0; [apply Rle_ge, pos_INR|]. assert (IZR (up r) <= 0) by (apply (IZR_le _ 0); lia). lra. }
  destruct (H' (bound / (4 * PI ^ 2 * k2 o / fs))) as [n0 H]. exists n0. intros n len u0 u2 u3 [L1 L2] W0 W2 W3 N02 N03 N23.
  rewrite (C106_variance m len u0 u2 u3 o fs n W0 W2 W3 N02 N03 N23 F K0 (Rlt_le _ _ K2) K3 L2).
  assert (A : 0 <= k0 o * fs) by (apply Rmult_le_pos; lra).
  assert (B : 0 <= 8 * PI ^ 3 * k3 o / fs ^ 2 * rsum (fun k => coefficient k ^ 2) (S n)).
  { apply Rmult_le_pos; [|apply rsum_nonneg; intros; apply pow2_ge_0]. apply Rmult_le_pos; [apply Rmult_le_pos; [apply Rmult_le_pos; [lra|apply pow_le; lra]|exact K3]|]. apply Rlt_le, Rinv_0_lt_compat, pow_lt. exact F. }
  assert (C : bound < 4 * PI ^ 2 * k2 o * (INR (S n) / fs)); [|lra].
  replace (4 * PI ^ 2 * k2 o * (INR (S n) / fs)) with (INR (S n) * (4 * PI ^ 2 * k2 o / fs)) by (field; lra).
  assert (Q : INR n0 <= INR (S n)) by (apply le_INR; lia). apply (Rmult_gt_compat_r (4 * PI ^ 2 * k2 o / fs)) in H; [|exact S0].
  replace (bound / (4 * PI ^ 2 * k2 o / fs) * (4 * PI ^ 2 * k2 o / fs)) with bound in H by (field; repeat split; lra).
  apply Rlt_le_trans with (INR n0 * (4 * PI ^ 2 * k2 o / fs)); [exact H|]. apply Rmult_le_compat_r; lra.
Qed.
Print Assumptions C106_stationary_refuted.
(** Draws of single numbers: signs of three coins *)
Definition coins (bit w a : nat) : R := if Nat.testbit w bit then 1 else -1.
Example C106_variance_met : white_sequence 8 1 (coins 0) /\ white_sequence 8 1 (coins 1) /\ white_sequence 8 1 (coins 2) /\
  unrelated 8 1 (coins 0) (coins 1) /\ unrelated 8 1 (coins 0) (coins 2) /\ unrelated 8 1 (coins 1) (coins 2).
Proof.
  repeat split; try lia; intros a b Ha Hb; try (replace a with 0%nat by lia; replace b with 0%nat by lia); unfold mean, coins; cbn; lra.
Qed.
