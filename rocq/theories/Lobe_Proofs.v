(** Proofs about beam patterns and interference evaluators. *)
From Coq Require Import List Reals Lra Lia Bool Arith Psatz.
From Coquelicot Require Import Complex.
From Verif Require Import Base BaseLemmas Cplx Cplx_Proofs Rot_Model Rot_Spec Rot_Proofs Ant_Model Ant_Spec Ant_Proofs Beam_Model Beam_Spec Beam_Proofs Lobe_Model Lobe_Spec.
Import ListNotations.
Open Scope R_scope.

(** ** Energies *)
Lemma add_up_tab : forall (f : nat -> R) n, add_up (map f (seq 0 n)) = rsum f n.
Proof.
  intros f n. induction n as [|n IH]; [reflexivity|]. rewrite seq_S, map_app. cbn [map rsum plus]. rewrite <- IH. clear IH. unfold add_up.
  induction (map f (seq 0 n)) as [|a l IHl]; cbn [app fold_right]; [ring|]. rewrite IHl. ring.
Qed.
Lemma add_up_nth : forall (l : list R), add_up l = rsum (fun k => nth k l 0) (length l).
Proof.
  intros l. rewrite <- add_up_tab. f_equal. apply (nth_ext _ _ 0 0); [rewrite map_length, seq_length; reflexivity|].
  intros k Hk. rewrite (nth_map' _ _ _ 0 0%nat) by (rewrite seq_length; exact Hk). rewrite seq_nth by exact Hk. reflexivity.
Qed.
Lemma norm2_energy : forall l, norm2 l = energy (fun t => at0 l t) (length l).
Proof.
  intros l. unfold norm2, energy. rewrite add_up_nth, map_length. apply rsum_ext. intros i Hi.
  rewrite (nth_map' _ _ _ 0 (RtoC 0)) by exact Hi. reflexivity.
Qed.
Lemma block_energy_spec : forall b, rectangular b -> block_energy b = rsum (fun n => energy (fun t => at2 b n t) (width b)) (length b).
Proof.
  intros b Hb. unfold block_energy. rewrite add_up_nth, map_length. apply rsum_ext. intros i Hi.
  rewrite (nth_map' _ _ _ 0 []) by exact Hi. rewrite norm2_energy. unfold rectangular in Hb. rewrite Forall_forall in Hb.
  rewrite (Hb (nth i b []) (nth_In _ _ Hi)). reflexivity.
Qed.
Lemma energy_ext : forall f g n, (forall t, (t < n)%nat -> f t = g t) -> energy f n = energy g n.
Proof. intros f g n H. apply rsum_ext. intros i Hi. rewrite H by exact Hi. reflexivity. Qed.
Lemma beamformed_spec : forall w b, length w = length b -> beamformed_energy w b = Ok (energy (radiated w b) (width b)).
Proof.
  intros w b H. unfold beamformed_energy, weigh. rewrite (proj2 (Nat.eqb_eq _ _) H). cbn [bind]. rewrite norm2_energy, length_tab.
  f_equal. apply energy_ext. intros t Ht. rewrite at0_tab by exact Ht. reflexivity.
Qed.
Lemma total_spec : forall n x, fits n x -> add_up (map block_energy x) = total_energy x.
Proof.
  intros n x H. unfold total_energy. induction H as [|b x [Hl Hr] H IH]; [reflexivity|].
  cbn [map add_up fold_right over_blocks]. rewrite block_energy_spec by exact Hr. f_equal. exact IH.
Qed.
Lemma beamformed_sum : forall w n x, fits n x -> length w = n ->
  exists l, mapM (beamformed_energy w) x = Ok l /\ add_up l = weighted_energy w x.
Proof.
  intros w n x H Hw. unfold weighted_energy. induction H as [|b x [Hl Hr] H [l [E1 E2]]]; [exists []; split; reflexivity|].
  exists (energy (radiated w b) (width b) :: l). cbn [mapM over_blocks]. rewrite beamformed_spec by congruence. cbn [bind]. rewrite E1. cbn [bind].
  split; [reflexivity|]. cbn [add_up fold_right]. f_equal. exact E2.
Qed.
Lemma energies_spec : forall ws n x, fits n x -> Forall (fun w => length w = n) ws -> energies ws x = Ok (map (fun w => weighted_energy w x) ws).
Proof.
  intros ws n x H Hw. unfold energies. induction Hw as [|w ws Hw Hws IH]; [reflexivity|].
  destruct (beamformed_sum w n x H Hw) as [l [E1 E2]]. cbn [mapM map]. rewrite E1. cbn [bind]. rewrite IH. cbn [bind]. rewrite E2. reflexivity.
Qed.
Lemma ratio_some : forall a b, b <> 0 -> ratio a b = Some (a / b).
Proof. intros a b H. unfold ratio. destruct (Req_EM_T b 0) as [E|_]; [contradiction|reflexivity]. Qed.
Lemma nan_sum_some : forall l, nan_sum (map Some l) = Some (add_up l).
Proof. induction l as [|a l IH]; [reflexivity|]. cbn [map nan_sum add_up fold_right]. rewrite IH. reflexivity. Qed.

(** ** The evaluation *)
Lemma evaluate_spec : forall arr carrier e v n x, rigid (base arr) -> aimed arr (e_focus e) v ->
  (e_mode e = TX /\ e_output e = Some x \/ e_mode e = RX /\ e_input e = Some x) ->
  n = length (select (e_mode e) (antennas arr)) -> fits n x -> Forall (fun w => length w = n) (e_codebook e) -> total_energy x <> 0 ->
  evaluate arr carrier e = Ok (Evaluation (map (fun w => Some (weighted_energy w x / total_energy x)) (e_codebook e))
                                          (Some (pattern arr carrier (e_mode e) v x / total_energy x))).
Proof.
  intros arr carrier e v n x Hb Hf Hm Hn Hx Hc Ht. unfold evaluate.
  set (r := match e_mode e with TX => _ | RX => _ | DUPLEX => _ end). assert (Er : r = Ok x) by (unfold r; destruct Hm as [[-> ->]|[-> ->]]; reflexivity).
  rewrite Er. cbn [bind]. cbv zeta. rewrite response_wavefront by exact Hb. rewrite (aimed_angles arr _ v Hb Hf).
  set (f := wavefront arr carrier v (e_mode e)). assert (Hl : length f = n) by (unfold f; rewrite length_wavefront; symmetry; exact Hn).
  replace (forallb (fun r0 => Nat.eqb (length r0) (length f)) (e_codebook e)) with true.
  2:{ symmetry. apply forallb_forall. intros w Hw. rewrite Forall_forall in Hc. apply Nat.eqb_eq. rewrite (Hc w Hw). symmetry. exact Hl. }
  cbn [negb]. rewrite (energies_spec (f :: e_codebook e) n x Hx) by (constructor; assumption). cbn [bind]. cbv zeta. rewrite (total_spec n x Hx).
  cbn [map tl hd]. rewrite map_map. f_equal. f_equal; [apply map_ext; intros w; apply ratio_some; exact Ht|apply ratio_some; exact Ht].
Qed.

(** ** Histories *)
Lemma notify_all : forall h e, fold_left notify h e =
  Evaluator (last_mode h (e_mode e)) (last_focus h (e_focus e)) (e_codebook e) (last_received h (e_input e)) (last_transmitted h (e_output e)).
Proof.
  induction h as [|v h IH]; intros e; [destruct e; reflexivity|]. cbn [fold_left]. rewrite IH.
  destruct v; cbn [notify e_mode e_focus e_codebook e_input e_output last_mode last_focus last_received last_transmitted]; reflexivity.
Qed.

(** ** The bound *)
Lemma square_sum : forall (f : nat -> C) n, Cmod (csum f n) ^ 2 <= INR n * rsum (fun i => Cmod (f i) ^ 2) n.
Proof.
  intros f n. induction n as [|n IH]; [cbn [csum rsum]; rewrite Cmod_0; cbn; lra|].
  cbn [csum rsum]. set (q := rsum (fun i => Cmod (f i) ^ 2) n) in *. set (t := Cmod (csum f n)) in *. set (c := Cmod (f n)).
  assert (Ht : 0 <= t) by apply Cmod_ge_0. assert (Hc : 0 <= c) by apply Cmod_ge_0. pose proof (Cmod_triangle (csum f n) (f n)) as Htr. fold t c in Htr.
  assert (Hs : Cmod (csum f n + f n)%C ^ 2 <= (t + c) ^ 2). { pose proof (Cmod_ge_0 (csum f n + f n)%C). apply pow_incr. split; assumption. }
  eapply Rle_trans; [exact Hs|]. rewrite S_INR. pose proof (pos_INR n) as Hn.
  destruct n as [|m].
  - cbn [INR] in IH. assert (t = 0) by nra. assert (q = 0) by reflexivity. cbn [INR]. nra.
  - assert (Hk : 1 <= INR (S m)) by (rewrite S_INR; pose proof (pos_INR m); lra). set (k := INR (S m)) in *.
    assert (Hkq : k * (2 * t * c) <= k * (q + k * c ^ 2)).
    { assert (0 <= (t - k * c) ^ 2) by apply pow2_ge_0. nra. }
    assert (2 * t * c <= q + k * c ^ 2) by (apply Rmult_le_reg_l with k; lra). nra.
Qed.
Lemma rsum_le : forall f g n, (forall i, (i < n)%nat -> f i <= g i) -> rsum f n <= rsum g n.
Proof. intros f g n. induction n as [|n IH]; intros H; [cbn; lra|]. cbn [rsum]. specialize (IH ltac:(intros; apply H; lia)). specialize (H n ltac:(lia)). lra. Qed.
Lemma rsum_plus : forall f g n, rsum (fun i => f i + g i) n = rsum f n + rsum g n.
Proof. intros f g n. induction n as [|n IH]; cbn [rsum]; [ring|]. rewrite IH. ring. Qed.
Lemma rsum_swap : forall (f : nat -> nat -> R) n m, rsum (fun i => rsum (f i) m) n = rsum (fun j => rsum (fun i => f i j) n) m.
Proof.
  intros f n m. induction n as [|n IH]; [cbn [rsum]; symmetry; induction m as [|m IH]; cbn [rsum]; lra|].
  cbn [rsum]. rewrite IH, <- rsum_plus. reflexivity.
Qed.
Lemma weighted_bound : forall w b, (forall n, (n < length w)%nat -> Cmod (at0 w n) = 1) -> length w = length b ->
  energy (radiated w b) (width b) <= INR (length w) * rsum (fun n => energy (fun t => at2 b n t) (width b)) (length b).
Proof.
  intros w b Hw Hl. unfold energy at 2. rewrite rsum_swap, <- rsum_scal. apply rsum_le. intros t _. unfold radiated.
  eapply Rle_trans; [apply square_sum|]. apply Rmult_le_compat_l; [apply pos_INR|]. rewrite Hl. apply Req_le, rsum_ext. intros i Hi.
  rewrite Cmod_mult, Hw by (rewrite Hl; exact Hi). rewrite Rmult_1_l. reflexivity.
Qed.
Lemma over_blocks_bound : forall w n x, (forall k, (k < length w)%nat -> Cmod (at0 w k) = 1) -> length w = n -> fits n x ->
  weighted_energy w x <= INR n * total_energy x.
Proof.
  intros w n x Hw Hl Hx. unfold weighted_energy, total_energy. induction Hx as [|b x [Hb Hr] Hx IH]; cbn [over_blocks]; [lra|].
  pose proof (weighted_bound w b Hw ltac:(congruence)) as H. rewrite Hl in H. lra.
Qed.
Lemma weighted_pos : forall w x, 0 <= weighted_energy w x.
Proof. intros w x. unfold weighted_energy. induction x as [|b x IH]; cbn [over_blocks]; [lra|]. pose proof (energy_pos (radiated w b) (width b)). lra. Qed.
Lemma total_pos : forall x, 0 <= total_energy x.
Proof.
  intros x. unfold total_energy. induction x as [|b x IH]; cbn [over_blocks]; [lra|].
  assert (0 <= rsum (fun n => energy (fun t => at2 b n t) (width b)) (length b)) by (apply rsum_pos; intros; apply energy_pos). lra.
Qed.
Lemma wavefront_unit : forall arr carrier v m n, (n < length (wavefront arr carrier v m))%nat -> Cmod (at0 (wavefront arr carrier v m) n) = 1.
Proof. intros arr carrier v m n Hn. rewrite length_wavefront in Hn. rewrite wavefront_at by exact Hn. apply cis_modulus. Qed.

(** ** Scaling *)
Lemma at2_amplified : forall k (b : block) n t, at2 (map (map (fun z => (k * z)%C)) b) n t = (k * at2 b n t)%C.
Proof.
  intros k b n t. unfold at2. destruct (Nat.lt_ge_cases n (length b)) as [Hn|Hn].
  - rewrite (nth_map' _ b n [] []) by exact Hn. unfold at0. destruct (Nat.lt_ge_cases t (length (nth n b []))) as [Ht|Ht].
    + rewrite (nth_map' _ _ t (RtoC 0) (RtoC 0)) by exact Ht. reflexivity.
    + rewrite !nth_overflow; [ring|exact Ht|rewrite map_length; exact Ht].
  - rewrite !(nth_overflow (_ : list (list C)) []) by (rewrite ?map_length; exact Hn). unfold at0. destruct t; cbn [nth]; ring.
Qed.
Lemma width_amplified : forall k (b : block), width (map (map (fun z => (k * z)%C)) b) = width b.
Proof. intros k b. unfold width. destruct b as [|s b]; [reflexivity|]. cbn [map nth]. apply map_length. Qed.
Lemma weighted_amplified : forall w k x, weighted_energy w (amplified k x) = Cmod k ^ 2 * weighted_energy w x.
Proof.
  intros w k x. unfold weighted_energy, amplified. induction x as [|b x IH]; cbn [map over_blocks]; [ring|]. rewrite IH, Rmult_plus_distr_l. f_equal.
  unfold energy. rewrite width_amplified, <- rsum_scal. apply rsum_ext. intros t _. unfold radiated. rewrite <- Rpow_mult_distr, <- Cmod_mult. do 2 f_equal.
  rewrite <- csum_scal. apply csum_ext. intros n _. rewrite at2_amplified. ring.
Qed.
Lemma total_amplified : forall k x, total_energy (amplified k x) = Cmod k ^ 2 * total_energy x.
Proof.
  intros k x. unfold total_energy, amplified. induction x as [|b x IH]; cbn [map over_blocks]; [ring|]. rewrite IH, Rmult_plus_distr_l. f_equal.
  rewrite map_length, <- rsum_scal. apply rsum_ext. intros n _. unfold energy. rewrite width_amplified, <- rsum_scal. apply rsum_ext. intros t _.
  rewrite at2_amplified, Cmod_mult, Rpow_mult_distr. reflexivity.
Qed.
Lemma fits_amplified : forall k n x, fits n x -> fits n (amplified k x).
Proof.
  intros k n x H. unfold fits, amplified in *. induction H as [|b x [Hl Hr] H IH]; [constructor|]. cbn [map]. constructor; [|exact IH].
  split; [rewrite map_length; exact Hl|]. unfold rectangular in *. rewrite Forall_map, width_amplified. eapply Forall_impl; [|exact Hr].
  intros s Hs. cbv beta in *. rewrite map_length. exact Hs.
Qed.
Lemma evaluate_amplified : forall arr carrier e e' v n x k, rigid (base arr) -> aimed arr (e_focus e) v ->
  (e_mode e = TX /\ e_output e = Some x /\ e_output e' = Some (amplified k x) \/ e_mode e = RX /\ e_input e = Some x /\ e_input e' = Some (amplified k x)) ->
  e_mode e' = e_mode e -> e_focus e' = e_focus e -> e_codebook e' = e_codebook e ->
  n = length (select (e_mode e) (antennas arr)) -> fits n x -> Forall (fun w => length w = n) (e_codebook e) -> total_energy x <> 0 -> k <> RtoC 0 ->
  evaluate arr carrier e' = evaluate arr carrier e.
Proof.
  intros arr carrier e e' v n x k Hb Hf Hm Em Ef Ec Hn Hx Hc Ht Hk.
  assert (Hk1 : Cmod k <> 0) by (intros E; apply Hk, Cmod_eq_0, E). assert (Hk2 : Cmod k ^ 2 <> 0) by (apply pow_nonzero; exact Hk1).
  rewrite (evaluate_spec arr carrier e v n x Hb Hf) by (try assumption; tauto).
  assert (Ht' : total_energy (amplified k x) <> 0) by (rewrite total_amplified; apply Rmult_integral_contrapositive_currified; assumption).
  rewrite (evaluate_spec arr carrier e' v n (amplified k x) Hb); rewrite ?Em, ?Ef, ?Ec; try assumption; try (apply fits_amplified; exact Hx); [|tauto].
  unfold pattern. f_equal. f_equal; [apply map_ext; intros w|]; f_equal; rewrite weighted_amplified, total_amplified; field; split; assumption.
Qed.

(** ** The codebook *)
Lemma length_linspace_open : forall s n, length (linspace_open s n) = n.
Proof. intros. unfold linspace_open. rewrite map_length, seq_length. reflexivity. Qed.
Lemma grid_nth : forall {A B C'} (f : A -> B -> C') (az : list A) (ze : list B) i j da db dc,
  (i < length ze)%nat -> (j < length az)%nat ->
  nth (i * length az + j) (flat_map (fun z => map (fun a => f a z) az) ze) dc = f (nth j az da) (nth i ze db).
Proof.
  intros A B C' f az ze. induction ze as [|z ze IH]; intros i j da db dc Hi Hj; [cbn in Hi; lia|]. cbn [flat_map]. destruct i as [|i].
  - cbn [mult plus]. rewrite app_nth1 by (rewrite map_length; exact Hj). apply (nth_map' (fun a => f a z)). exact Hj.
  - rewrite app_nth2 by (rewrite map_length; cbn; lia). rewrite map_length. replace (S i * length az + j - length az)%nat with (i * length az + j)%nat by (cbn; lia).
    cbn [nth]. apply IH; [cbn in Hi; lia|exact Hj].
Qed.
Lemma grid_length : forall {A B C'} (f : A -> B -> C') (az : list A) (ze : list B), length (flat_map (fun z => map (fun a => f a z) az) ze) = (length ze * length az)%nat.
Proof. intros. induction ze as [|z ze IH]; [reflexivity|]. cbn [flat_map length]. rewrite app_length, map_length, IH. cbn. lia. Qed.
Lemma assign_exact : forall n l, length l = n -> assign_row n l = Ok l.
Proof. intros n l H. unfold assign_row. rewrite (proj2 (Nat.eqb_eq _ _) H). reflexivity. Qed.
Lemma mapM_all_ok : forall {A B} (f : A -> result B) (g : A -> B) l, (forall a, f a = Ok (g a)) -> mapM f l = Ok (map g l).
Proof. intros A B f g l H. induction l as [|a l IH]; [reflexivity|]. cbn [mapM map]. rewrite H. cbn [bind]. rewrite IH. reflexivity. Qed.
Lemma codebook_spec : forall arr carrier m, rigid (base arr) -> m = TX \/ m = RX ->
  exists c, default_codebook arr carrier m = Ok c /\
  let n := length (select m (antennas arr)) in
  length c = (1 + (n - 1) * (2 * n))%nat /\ nth_error c 0 = Some (repeat (RtoC 1) n) /\
  Forall (fun w => length w = n) c /\
  (forall i j, (i < n - 1)%nat -> (j < 2 * n)%nat -> nth_error c (1 + i * (2 * n) + j) = Some (wavefront arr carrier (ring n (S i) j) m)).
Proof.
  intros arr carrier m Hb Hm. unfold default_codebook. replace (match m with TX => TX | _ => RX end) with m by (destruct Hm; subst m; reflexivity).
  cbv zeta. set (n := length (select m (antennas arr))).
  set (ang := flat_map (fun z => map (fun a => (a, z)) (linspace_open (2 * PI) (2 * n))) (tl (linspace_closed PI n))).
  rewrite (mapM_all_ok _ (fun p : R * R => wavefront arr carrier (From_Spherical (fst p) (snd p)) m)).
  2:{ intros [a z]. cbn [fst snd]. rewrite response_wavefront by exact Hb. apply assign_exact. apply length_wavefront. }
  cbn [bind]. eexists. split; [reflexivity|].
  assert (Hz : length (tl (linspace_closed PI n)) = (n - 1)%nat).
  { unfold linspace_closed. destruct n as [|k]; [reflexivity|]. cbn [seq map tl]. rewrite map_length, seq_length. lia. }
  assert (Ha : length ang = ((n - 1) * (2 * n))%nat) by (unfold ang; rewrite (grid_length (fun a z : R => (a, z))), Hz, length_linspace_open; reflexivity).
  split; [cbn [length]; rewrite map_length, Ha; lia|]. split; [reflexivity|]. split.
  - constructor; [apply repeat_length|]. rewrite Forall_map. apply Forall_forall. intros p _. apply length_wavefront.
  - intros i j Hi Hj. replace (1 + i * (2 * n) + j)%nat with (S (i * (2 * n) + j)) by lia. cbn [nth_error]. rewrite nth_error_map.
    rewrite (nth_error_nth' ang (0, 0)) by (rewrite Ha; nia). cbn [option_map]. do 2 f_equal.
    assert (E : nth (i * (2 * n) + j) ang (0, 0) = (INR j * (2 * PI / INR (2 * n)), INR (S i) * (PI / INR (n - 1)))).
    { unfold ang. pose proof (grid_nth (fun a z : R => (a, z)) (linspace_open (2 * PI) (2 * n)) (tl (linspace_closed PI n)) i j 0 0 (0, 0)) as G.
      rewrite length_linspace_open, Hz in G. rewrite G by assumption. f_equal.
      - unfold linspace_open. rewrite (nth_map' _ _ _ 0 0%nat) by (rewrite seq_length; exact Hj). rewrite seq_nth by exact Hj. reflexivity.
      - unfold linspace_closed. destruct n as [|k]; [lia|]. cbn [seq map tl]. rewrite (nth_map' _ _ _ 0 0%nat) by (rewrite seq_length; lia). rewrite seq_nth by lia. reflexivity. }
    rewrite E. reflexivity.
Qed.
Lemma south_pole : forall n j, (2 <= n)%nat -> ring n (n - 1) j = V 0 0 (-1).
Proof.
  intros n j Hn. unfold ring. assert (Hk : INR (n - 1) <> 0) by (apply not_0_INR; lia). replace (INR (n - 1) * (PI / INR (n - 1))) with PI by (field; exact Hk).
  unfold From_Spherical. rewrite sin_PI, cos_PI. f_equal; ring.
Qed.

(** ** Waves from a direction *)
Lemma opposite_phase : forall arr carrier v m n, (n < length (select m (antennas arr)))%nat ->
  (at0 (wavefront arr carrier v m) n * at0 (wavefront arr carrier (opposite v) m) n)%C = RtoC 1.
Proof.
  intros arr carrier v m n Hn. rewrite !wavefront_at by exact Hn. rewrite <- cis_add, <- cis_0. f_equal.
  set (p := translation _). destruct v as [a b c]. destruct p as [d e f]. unfold opposite, dot. cbn [vx vy vz]. field. unfold speed_of_light. lra.
Qed.
Lemma radiated_arriving : forall w a s t, length w = length a -> (t < length s)%nat ->
  radiated w (arriving a s) t = (csum (fun n => at0 w n * at0 a n) (length a) * at0 s t)%C.
Proof.
  intros w a s t Hl Ht. unfold radiated. rewrite Hl, <- csum_scal_r. apply csum_ext. intros n Hn. rewrite at2_arriving by assumption. ring.
Qed.
Lemma fits_arriving : forall a s, (0 < length a)%nat -> fits (length a) [arriving a s].
Proof.
  intros a s Ha. constructor; [|constructor]. split; [apply length_arriving|]. unfold rectangular. rewrite width_arriving by exact Ha.
  unfold arriving. rewrite Forall_map. apply Forall_forall. intros k _. apply map_length.
Qed.
Lemma total_arriving : forall a s, (forall n, (n < length a)%nat -> Cmod (at0 a n) = 1) -> (0 < length a)%nat ->
  total_energy [arriving a s] = INR (length a) * energy (at0 s) (length s).
Proof.
  intros a s Hu Ha. unfold total_energy. cbn [over_blocks]. rewrite length_arriving, width_arriving by exact Ha. rewrite Rplus_0_r.
  transitivity (rsum (fun _ => energy (at0 s) (length s)) (length a)); [apply rsum_ext; intros n Hn; unfold energy; apply rsum_ext; intros t Ht; rewrite at2_arriving by assumption; rewrite Cmod_mult, Hu by exact Hn; rewrite Rmult_1_l; reflexivity|].
  clear. induction (length a) as [|n IH]; [cbn; lra|]. cbn [rsum]. rewrite IH, S_INR. ring.
Qed.
Lemma weighted_arriving : forall w a s, length w = length a -> (0 < length a)%nat ->
  weighted_energy w [arriving a s] = Cmod (csum (fun n => at0 w n * at0 a n)%C (length a)) ^ 2 * energy (at0 s) (length s).
Proof.
  intros w a s Hl Ha. unfold weighted_energy. cbn [over_blocks]. rewrite width_arriving by exact Ha. rewrite Rplus_0_r. unfold energy.
  rewrite <- rsum_scal. apply rsum_ext. intros t Ht. rewrite radiated_arriving by assumption. rewrite Cmod_mult, Rpow_mult_distr. reflexivity.
Qed.

(** ** Interference *)
Lemma broadcast_same : forall {A} (f : R -> R -> A) a b, length a = length b -> broadcast f a b = Ok (map (fun p => f (fst p) (snd p)) (combine a b)).
Proof. intros A f a b H. unfold broadcast. rewrite (proj2 (Nat.eqb_eq _ _) H). reflexivity. Qed.
Lemma nth_pairs : forall {A} (f : R -> R -> A) a b k d, length a = length b -> (k < length a)%nat ->
  nth k (map (fun p => f (fst p) (snd p)) (combine a b)) d = f (nth k a 0) (nth k b 0).
Proof.
  intros A f a b k d Hl Hk. rewrite (nth_map' _ _ _ d (0, 0)) by (rewrite combine_length; lia). rewrite combine_nth by exact Hl. reflexivity.
Qed.
Lemma add_all_spec : forall l a n, length a = n -> Forall (fun p => length p = n) l ->
  exists r, add_all a l = Ok r /\ length r = n /\ forall k, (k < n)%nat -> nth k r 0 = nth k a 0 + stream_power l k.
Proof.
  induction l as [|b l IH]; intros a n Ha Hl.
  - exists a. split; [reflexivity|]. split; [exact Ha|]. intros k _. cbn. ring.
  - inversion Hl as [|b' l' Hb Hl' E1]; subst b' l'. cbn [add_all]. unfold add_into. rewrite broadcast_same by congruence. cbn [bind].
    set (c := map _ _). assert (Hc : length c = n) by (unfold c; rewrite map_length, combine_length; lia).
    rewrite (proj2 (Nat.eqb_eq (length c) (length a))) by congruence. cbn [bind].
    destruct (IH c n Hc Hl') as [r [E [Hr Hk]]]. exists r. split; [exact E|]. split; [exact Hr|]. intros k Hkn. rewrite Hk by exact Hkn. unfold c.
    rewrite (nth_pairs Rplus) by (try congruence; lia). cbn [stream_power fold_right]. unfold stream_power. ring.
Qed.
