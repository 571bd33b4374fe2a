(** Proofs about beamformers. *)
From Coq Require Import List Reals Lra Lia.
From Coquelicot Require Import Complex.
From Verif Require Import Base BaseLemmas Cplx Cplx_Proofs Rot_Model Rot_Spec Rot_Proofs Ant_Model Ant_Spec Ant_Proofs Beam_Model Beam_Spec.
Import ListNotations.
Open Scope R_scope.

(** Directions *)
Lemma aimed_angles : forall arr f v, rigid (base arr) -> aimed arr f v ->
  From_Spherical (fst (spherical_angles arr f)) (snd (spherical_angles arr f)) = v.
Proof.
  intros arr f v Hb Hf. destruct f as [a z|d [|]]; cbn [aimed spherical_angles] in *.
  - subst v. cbn [fst snd]. apply vec_eq; unfold From_Spherical; cbn; ring.
  - destruct Hf as [Hd ->]. apply norm_one in Hd. pose proof (spherical_write d Hd) as W. destruct (to_spherical d). exact W.
  - destruct Hf as [Hd ->]. assert (E : rotate_direction (invert (base arr)) (mv (rotation (base arr)) v) = v).
    { unfold rotate_direction, invert. cbn [rotation]. rewrite <- mv_mm, minv_l by (destruct Hb; lra). apply mv_eye. }
    rewrite E. apply norm_one in Hd. rewrite dot_proper in Hd by exact Hb. pose proof (spherical_write v Hd) as W. destruct (to_spherical v). exact W.
Qed.
Lemma response_wavefront : forall arr carrier a z m, rigid (base arr) ->
  spherical_phase_response arr carrier a z m = wavefront arr carrier (From_Spherical a z) m.
Proof.
  intros arr carrier a z m Hb. unfold spherical_phase_response, plane_phases, wavefront. rewrite topology_local by (destruct Hb; lra). rewrite map_map.
  apply map_ext. intros x. do 3 f_equal. f_equal. unfold From_Spherical. apply vec_eq; cbn; ring.
Qed.
Lemma length_wavefront : forall arr carrier v m, length (wavefront arr carrier v m) = length (select m (antennas arr)).
Proof. intros. apply map_length. Qed.
Lemma length_steering : forall arr carrier v m, length (steering arr carrier v m) = length (select m (antennas arr)).
Proof. intros. apply map_length. Qed.

Lemma nth_map' : forall {X Y} (f : X -> Y) l i d d', (i < length l)%nat -> nth i (map f l) d = f (nth i l d').
Proof. intros X Y f l i d d' H. rewrite (nth_indep _ d (f d')) by (rewrite map_length; exact H). apply map_nth. Qed.
Lemma at2_arriving : forall a s n t, (n < length a)%nat -> (t < length s)%nat -> at2 (arriving a s) n t = (at0 a n * at0 s t)%C.
Proof.
  intros a s n t Hn Ht. unfold at2, arriving. rewrite (nth_map' _ a n [] (RtoC 0)) by exact Hn. unfold at0. rewrite (nth_map' _ s t (RtoC 0) (RtoC 0)) by exact Ht. reflexivity.
Qed.
Lemma width_arriving : forall a s, (0 < length a)%nat -> width (arriving a s) = length s.
Proof. intros a s H. unfold width, arriving. destruct a as [|k a]; [cbn in H; lia|]. cbn [map nth]. apply map_length. Qed.
Lemma length_arriving : forall a s, length (arriving a s) = length a.
Proof. intros. apply map_length. Qed.

Lemma weigh_arriving : forall w a s, length w = length a -> (0 < length a)%nat ->
  weigh w (arriving a s) = Ok (map (fun x => (csum (fun n => at0 w n * at0 a n) (length a) * x)%C) s).
Proof.
  intros w a s Hl H0. unfold weigh. rewrite length_arriving, Hl, Nat.eqb_refl, width_arriving by exact H0. f_equal.
  rewrite <- (tab_nth (RtoC 0) (map (fun x => (csum (fun n => at0 w n * at0 a n) (length a) * x)%C) s)). rewrite map_length. apply tab_ext. intros t Ht.
  rewrite (nth_map' _ s t (RtoC 0) (RtoC 0)) by exact Ht. rewrite <- csum_scal_r. apply csum_ext. intros n Hn.
  rewrite at2_arriving by assumption. unfold at0. ring.
Qed.

(** The weights of the conventional beamformer undo a plane wave whose direction is given along the scene's axes *)
Lemma steering_at : forall arr carrier ang m n, rigid (base arr) -> (n < length (select m (antennas arr)))%nat ->
  at0 (steering arr carrier ang m) n =
  cis (- (2 * PI * carrier * dot (mv (transpose (rotation (base arr))) (From_Spherical (fst ang) (snd ang)))
          (translation (apose (nth n (select m (antennas arr)) (A TX Ideal no_transformation)))) / speed_of_light)).
Proof.
  intros arr carrier ang m n Hb Hn. unfold at0, steering. rewrite (nth_map' _ _ n (RtoC 0) (A TX Ideal no_transformation)) by exact Hn.
  f_equal. f_equal. set (a := nth n (select m (antennas arr)) (A TX Ideal no_transformation)). rewrite scene_forwards. unfold scene_position.
  set (d := From_Spherical (fst ang) (snd ang)). set (t := translation (apose a)).
  replace (vsub (vadd (mv (rotation (base arr)) t) (translation (base arr))) (translation (base arr))) with (mv (rotation (base arr)) t)
    by (generalize (mv (rotation (base arr)) t); intros w; apply vec_eq; comps; ring).
  replace (dot (mv (rotation (base arr)) t) d) with (dot (mv (transpose (rotation (base arr))) d) t) by (comps; ring). unfold Rdiv. ring.
Qed.
Lemma wavefront_at : forall arr carrier v m n, (n < length (select m (antennas arr)))%nat ->
  at0 (wavefront arr carrier v m) n = cis (2 * PI * carrier * dot v (translation (apose (nth n (select m (antennas arr)) (A TX Ideal no_transformation)))) / speed_of_light).
Proof.
  intros. unfold at0, wavefront. rewrite (nth_map' _ _ n (RtoC 0) (A TX Ideal no_transformation)) by assumption. reflexivity.
Qed.
Lemma matched : forall arr carrier ang v m, rigid (base arr) -> From_Spherical (fst ang) (snd ang) = mv (rotation (base arr)) v ->
  csum (fun n => at0 (steering arr carrier ang m) n * at0 (wavefront arr carrier v m) n)%C (length (select m (antennas arr)))
  = RtoC (INR (length (select m (antennas arr)))).
Proof.
  intros arr carrier ang v m Hb Hv. rewrite (csum_ext _ (fun _ => RtoC 1)).
  - rewrite csum_const. ring.
  - intros n Hn. rewrite steering_at, wavefront_at by assumption. rewrite Hv, <- mv_mm, (proper_transpose _ Hb), mv_eye, <- cis_add.
    rewrite Rplus_comm, Rplus_opp_r. apply cis_0.
Qed.
Lemma Cmod_csum : forall f n b, (forall i, (i < n)%nat -> Cmod (f i) <= b) -> Cmod (csum f n) <= INR n * b.
Proof.
  intros f n b. induction n as [|n IH]; intros H.
  - cbn [csum INR]. rewrite Cmod_0. lra.
  - cbn [csum]. rewrite S_INR. eapply Rle_trans; [apply Cmod_triangle|]. specialize (IH ltac:(intros i Hi; apply H; lia)). specialize (H n ltac:(lia)). lra.
Qed.
Lemma mismatched : forall arr carrier ang v m, rigid (base arr) ->
  Cmod (csum (fun n => at0 (steering arr carrier ang m) n * at0 (wavefront arr carrier v m) n)%C (length (select m (antennas arr))))
  <= INR (length (select m (antennas arr))).
Proof.
  intros arr carrier ang v m Hb. rewrite <- (Rmult_1_r (INR _)). apply Cmod_csum. intros i Hi. rewrite steering_at, wavefront_at by assumption.
  rewrite Cmod_mult, !cis_modulus. lra.
Qed.
Lemma RtoC_neq : forall r, r <> 0 -> RtoC r <> RtoC 0.
Proof. intros r H E. apply H. unfold RtoC in E. congruence. Qed.
Lemma scaled_sum : forall w a n k, length w = n -> k <> 0 ->
  csum (fun i => at0 (map (fun c => (c / RtoC k)%C) w) i * at0 a i)%C n = (csum (fun i => at0 w i * at0 a i) n / RtoC k)%C.
Proof.
  intros w a n k Hl Hk. unfold Cdiv. rewrite <- csum_scal_r. apply csum_ext. intros i Hi. unfold at0 at 1.
  rewrite (nth_map' _ w i (RtoC 0) (RtoC 0)) by lia. unfold at0, Cdiv. ring.
Qed.

(** Hermitian sums *)
Definition inner (u v : nat -> C) (n : nat) : C := csum (fun i => conj (u i) * v i)%C n.
Lemma conj_csum : forall f n, conj (csum f n) = csum (fun i => conj (f i)) n.
Proof. intros f n. induction n as [|n IH]; [apply conj_R|]. cbn [csum]. rewrite conj_plus, IH. reflexivity. Qed.
Lemma conj_inner : forall u v n, conj (inner u v n) = inner v u n.
Proof. intros. unfold inner. rewrite conj_csum. apply csum_ext. intros i _. rewrite conj_mult, conj_conj. ring. Qed.
Lemma conj_times : forall z : C, (conj z * z)%C = RtoC (Cmod z ^ 2).
Proof.
  intros [a b]. unfold conj, Cmod, Cmult, RtoC. cbn [fst snd]. rewrite <- Rsqr_pow2, Rsqr_sqrt by nra. f_equal; ring.
Qed.
Lemma csum_RtoC : forall f n, csum (fun i => RtoC (f i)) n = RtoC (rsum f n).
Proof. intros f n. induction n as [|n IH]; [reflexivity|]. cbn [csum rsum]. rewrite IH, RtoC_plus. reflexivity. Qed.
Lemma inner_self : forall u n, inner u u n = RtoC (energy u n).
Proof. intros. unfold inner, energy. rewrite <- csum_RtoC. apply csum_ext. intros. apply conj_times. Qed.
Lemma rsum_pos : forall f n, (forall i, (i < n)%nat -> 0 <= f i) -> 0 <= rsum f n.
Proof. intros f n. induction n as [|n IH]; intros H; [cbn; lra|]. cbn [rsum]. specialize (IH ltac:(intros; apply H; lia)). specialize (H n ltac:(lia)). lra. Qed.
Lemma rsum_zero : forall f n, (forall i, (i < n)%nat -> 0 <= f i) -> rsum f n = 0 -> forall i, (i < n)%nat -> f i = 0.
Proof.
  intros f n. induction n as [|n IH]; intros H E i Hi; [lia|]. cbn [rsum] in E. pose proof (rsum_pos f n ltac:(intros; apply H; lia)) as P. pose proof (H n ltac:(lia)) as Q.
  destruct (Nat.eq_dec i n) as [->|Hn]; [lra|]. apply IH; [intros; apply H; lia|lra|lia].
Qed.
Lemma rsum_ext : forall f g n, (forall i, (i < n)%nat -> f i = g i) -> rsum f n = rsum g n.
Proof. intros f g n. induction n as [|n IH]; intros H; [reflexivity|]. cbn [rsum]. rewrite IH, (H n) by (intros; try apply H; lia). reflexivity. Qed.
Lemma rsum_scal : forall c f n, rsum (fun i => c * f i) n = c * rsum f n.
Proof. intros c f n. induction n as [|n IH]; cbn [rsum]; [ring|]. rewrite IH. ring. Qed.
Lemma energy_pos : forall u n, 0 <= energy u n.
Proof. intros. apply rsum_pos. intros. apply pow2_ge_0. Qed.
Lemma energy_zero : forall u n, energy u n = 0 -> forall i, (i < n)%nat -> u i = RtoC 0.
Proof.
  intros u n E i Hi. pose proof (rsum_zero _ _ (fun i _ => pow2_ge_0 (Cmod (u i))) E i Hi) as H. cbv beta in H. apply Cmod_eq_0. nra.
Qed.
Lemma inner_plus_l : forall u v w n, inner (fun i => u i + v i)%C w n = (inner u w n + inner v w n)%C.
Proof. intros. unfold inner. rewrite <- csum_plus. apply csum_ext. intros. rewrite conj_plus. ring. Qed.
Lemma inner_plus_r : forall u v w n, inner u (fun i => v i + w i)%C n = (inner u v n + inner u w n)%C.
Proof. intros. unfold inner. rewrite <- csum_plus. apply csum_ext. intros. ring. Qed.
Lemma inner_scal_r : forall u v k n, inner u (fun i => v i * k)%C n = (inner u v n * k)%C.
Proof. intros. unfold inner. rewrite <- csum_scal_r. apply csum_ext. intros. ring. Qed.

Section Capon.
Variables (x : block) (loading : R) (p : nat -> nat -> C) (a : nat -> C).
Hypothesis (Hload : 0 <= loading).
Let n := length x.
Hypothesis (Hp : forall i j, (i < n)%nat -> (j < n)%nat -> csum (fun k => covariance x loading i k * p k j)%C n = identity_entry i j).

Definition out (u : nat -> C) : nat -> C := combined u x.
(** The form of the loaded covariance matrix: u^H R v *)
Definition form (u v : nat -> C) : C := (csum (fun t => out u t * conj (out v t)) (width x) + RtoC loading * inner u v n)%C.
Lemma form_covariance : forall u v, inner u (fun i => csum (fun j => covariance x loading i j * v j)%C n) n = form u v.
Proof.
  intros u v. unfold form, inner, covariance.
  transitivity (csum (fun i => csum (fun t => conj (u i) * at2 x i t * conj (out v t))%C (width x) + RtoC loading * (conj (u i) * v i))%C n).
  - apply csum_ext. intros i Hi.
    transitivity (conj (u i) * (csum (fun j => csum (fun t => at2 x i t * conj (at2 x j t))%C (width x) * v j)%C n + RtoC loading * v i))%C.
    + f_equal. rewrite <- (csum_delta (fun j => RtoC loading * v j)%C n i Hi) at 1. rewrite <- csum_plus. apply csum_ext. intros j _.
      destruct (Nat.eqb i j) eqn:E.
      * apply Nat.eqb_eq in E. subst j. rewrite Nat.eqb_refl. ring.
      * rewrite Nat.eqb_sym, E. ring.
    + rewrite Cmult_plus_distr_l. f_equal; [|ring].
      transitivity (conj (u i) * csum (fun t => csum (fun j => at2 x i t * conj (at2 x j t) * v j) n) (width x))%C.
      * f_equal. rewrite csum_swap. apply csum_ext. intros j _. rewrite csum_scal_r. reflexivity.
      * rewrite <- csum_scal. apply csum_ext. intros t _. unfold out, combined. rewrite conj_csum. fold n.
        rewrite <- csum_scal, <- csum_scal. apply csum_ext. intros j _. rewrite conj_mult, conj_conj. ring.
  - rewrite csum_plus. f_equal.
    + rewrite csum_swap. apply csum_ext. intros t _. unfold out at 2, combined. fold n. rewrite csum_scal_r. reflexivity.
    + rewrite csum_scal. reflexivity.
Qed.
Definition solution (i : nat) : C := csum (fun j => p i j * a j)%C n.
Lemma solves : forall i, (i < n)%nat -> csum (fun j => covariance x loading i j * solution j)%C n = a i.
Proof.
  intros i Hi. unfold solution.
  transitivity (csum (fun k => csum (fun j => covariance x loading i j * p j k) n * a k)%C n).
  - transitivity (csum (fun j => csum (fun k => covariance x loading i j * p j k * a k) n)%C n).
    + apply csum_ext. intros j _. rewrite <- csum_scal. apply csum_ext. intros. ring.
    + rewrite csum_swap. apply csum_ext. intros k _. rewrite csum_scal_r. reflexivity.
  - transitivity (csum (fun k => (if Nat.eqb k i then a k else RtoC 0)) n)%C.
    + apply csum_ext. intros k Hk. rewrite Hp by assumption. unfold identity_entry. rewrite (Nat.eqb_sym k i). destruct (Nat.eqb i k); ring.
    + apply csum_delta. exact Hi.
Qed.
Lemma form_solution : forall u, form u solution = inner u a n.
Proof. intros u. rewrite <- form_covariance. unfold inner. apply csum_ext. intros i Hi. rewrite solves by exact Hi. reflexivity. Qed.
Definition cost (u : nat -> C) : R := energy (out u) (width x) + loading * energy u n.
Lemma form_self : forall u, form u u = RtoC (cost u).
Proof.
  intros u. unfold form, cost. rewrite inner_self, RtoC_plus, RtoC_mult. f_equal. unfold energy. rewrite <- csum_RtoC. apply csum_ext. intros t _.
  rewrite <- conj_times. ring.
Qed.
Lemma cost_ext : forall u v, (forall i, u i = v i) -> cost u = cost v.
Proof.
  intros u v H. unfold cost. f_equal; [|f_equal]; apply rsum_ext; intros i _; [|rewrite H; reflexivity].
  unfold out, combined. do 2 f_equal. apply csum_ext. intros k _. rewrite H. reflexivity.
Qed.
Lemma cost_pos : forall u, 0 <= cost u.
Proof. intros u. unfold cost. pose proof (energy_pos (out u) (width x)). pose proof (Rmult_le_pos _ _ Hload (energy_pos u n)). lra. Qed.
Lemma gain_self : inner solution a n = RtoC (cost solution).
Proof. rewrite <- form_solution, form_self. reflexivity. Qed.
Lemma gain_nonzero : (exists i, (i < n)%nat /\ a i <> RtoC 0) -> cost solution <> 0.
Proof.
  intros [i [Hi Ha]] E. unfold cost in E. pose proof (energy_pos (out solution) (width x)) as E1. pose proof (energy_pos solution n) as E2.
  pose proof (Rmult_le_pos _ _ Hload E2) as E3. assert (Z1 : energy (out solution) (width x) = 0) by lra. assert (Z2 : loading * energy solution n = 0) by lra.
  assert (Z : inner a a n = RtoC 0).
  { rewrite <- (form_solution a). unfold form. rewrite (csum_ext _ (fun _ => RtoC 0)).
    - rewrite csum_0. destruct (Rmult_integral _ _ Z2) as [->|Z3]; [ring|].
      unfold inner. rewrite (csum_ext _ (fun _ => RtoC 0)); [rewrite csum_0; ring|]. intros j Hj. rewrite (energy_zero _ _ Z3 j Hj). ring.
    - intros t Ht. rewrite (energy_zero _ _ Z1 t Ht), conj_R. ring. }
  rewrite inner_self in Z. apply Ha. apply (energy_zero a n); [|exact Hi]. unfold RtoC in Z. congruence.
Qed.
Lemma form_plus : forall u v, cost (fun i => u i + v i)%C = cost u + cost v + 2 * fst (form v u).
Proof.
  intros u v. assert (Eo : forall t, out (fun i => u i + v i)%C t = (out u t + out v t)%C).
  { intros t. unfold out, combined. rewrite <- csum_plus. apply csum_ext. intros. rewrite conj_plus. ring. }
  assert (F : form (fun i => u i + v i)%C (fun i => u i + v i)%C = (form u u + form v v + (form v u + form u v))%C).
  { unfold form. rewrite inner_plus_l, !inner_plus_r.
    rewrite (csum_ext _ (fun t => out u t * conj (out u t) + out v t * conj (out v t) + (out v t * conj (out u t) + out u t * conj (out v t)))%C)
      by (intros t _; rewrite !Eo, conj_plus; ring). rewrite !csum_plus. ring. }
  assert (Hc : form u v = conj (form v u)).
  { unfold form. rewrite conj_plus, conj_mult, conj_R, conj_inner, conj_csum. f_equal. apply csum_ext. intros t _. rewrite conj_mult, conj_conj. ring. }
  rewrite !form_self, Hc in F. clear Hc. revert F. generalize (form v u) (cost (fun i => u i + v i)%C) (cost u) (cost v). intros [q0 q1] c0 c1 c2 F. unfold RtoC, Cplus, conj in F. cbn [fst snd] in *. apply (f_equal fst) in F. cbn [fst] in F. lra.
Qed.
Lemma capon_optimal : (exists i, (i < n)%nat /\ a i <> RtoC 0) ->
  let w i := (solution i / RtoC (cost solution))%C in
  inner w a n = RtoC 1 /\ forall u, inner u a n = RtoC 1 -> cost w <= cost u.
Proof.
  intros Ha w. pose proof (gain_nonzero Ha) as Hg. pose proof (RtoC_neq _ Hg) as Hg'.
  assert (Ei : conj (/ RtoC (cost solution))%C = (/ RtoC (cost solution))%C) by (rewrite <- RtoC_inv by exact Hg; apply conj_R).
  assert (W : inner w a n = RtoC 1).
  { unfold inner, w, Cdiv. rewrite (csum_ext _ (fun i => conj (solution i) * a i * / RtoC (cost solution))%C).
    - rewrite csum_scal_r. fold (inner solution a n). rewrite gain_self. field. exact Hg'.
    - intros i _. rewrite conj_mult, Ei. ring. }
  split; [exact W|]. intros u Hu.
  set (d := fun i => (u i - w i)%C).
  assert (Hd : inner d a n = RtoC 0).
  { unfold d, Cminus. rewrite inner_plus_l, Hu. transitivity (RtoC 1 - inner w a n)%C; [|rewrite W; ring].
    unfold Cminus. f_equal. unfold inner. transitivity (csum (fun i => (- RtoC 1) * (conj (w i) * a i))%C n).
    - apply csum_ext. intros i _. replace (conj (- w i)%C) with (- conj (w i))%C by (destruct (w i); unfold conj, Copp; cbn; f_equal). ring.
    - rewrite csum_scal. ring. }
  assert (Ef : form d w = RtoC 0).
  { rewrite <- form_covariance. unfold inner. rewrite (csum_ext _ (fun i => conj (d i) * a i * / RtoC (cost solution))%C).
    - rewrite csum_scal_r. fold (inner d a n). rewrite Hd. ring.
    - intros i Hi. rewrite <- (solves i Hi). unfold w, Cdiv. rewrite <- Cmult_assoc. f_equal. rewrite <- csum_scal_r. apply csum_ext. intros. ring. }
  assert (Eu : cost u = cost (fun i => w i + d i)%C).
  { apply cost_ext. intros i. unfold d. ring. }
  rewrite Eu, form_plus, Ef. pose proof (cost_pos d). cbn [fst RtoC]. lra.
Qed.
End Capon.

(** Weights of the capon beamformer as produced by the model *)
Lemma capon_weights_at : forall x loading p a, 0 <= loading ->
  (forall i j, (i < length x)%nat -> (j < length x)%nat -> csum (fun k => covariance x loading i k * p k j)%C (length x) = identity_entry i j) ->
  forall i, (i < length x)%nat ->
  at0 (capon_weights (length x) p a) i = (solution x p (at0 a) i / RtoC (cost x loading (solution x p (at0 a))))%C.
Proof.
  intros x loading p a Hl Hp i Hi. unfold capon_weights. rewrite at0_tab by exact Hi. unfold solution at 1. f_equal.
  rewrite <- (conj_R (cost x loading (solution x p (at0 a)))), <- (gain_self x loading p (at0 a) Hp), conj_inner.
  unfold inner, solution. rewrite (csum_ext _ (fun i => csum (fun j => conj (at0 a j) * p j i * at0 a i)%C (length x))) by (intros k _; symmetry; apply csum_scal_r).
  rewrite csum_swap. apply csum_ext. intros j _. rewrite <- csum_scal. apply csum_ext. intros k _. ring.
Qed.

Section Null.
Variables (N : nat) (A : nat -> nat -> C) (X : nat -> nat -> C) (a0 : nat -> C).
Let G k l := csum (fun i => A i k * conj (A i l))%C N.
Hypothesis (HX : forall i j, (i < 2)%nat -> (j < 2)%nat -> csum (fun k => csum (fun l => G i l * X l k) 2 * G k j)%C 2 = G i j).
Let b l := csum (fun j => A j l * a0 j)%C N.
Let gx i k := csum (fun l => G i l * X l k)%C 2.
(** (G X - 1) A^T vanishes *)
Lemma residual_zero : forall m i, (m < 2)%nat -> (i < N)%nat -> (csum (fun k => gx m k * A i k) 2 - A i m)%C = RtoC 0.
Proof.
  intros m i Hm Hi. set (M k := (gx m k - identity_entry m k)%C).
  set (r i := csum (fun k => M k * A i k)%C 2).
  assert (Er : forall i, r i = (csum (fun k => gx m k * A i k) 2 - A i m)%C).
  { intros j. unfold r, M, identity_entry. destruct m as [|[|m]]; [| |lia]; cbn [csum Nat.eqb]; ring. }
  assert (EM : forall j, (j < 2)%nat -> csum (fun k => M k * G k j)%C 2 = RtoC 0).
  { intros j Hj. pose proof (HX m j Hm Hj) as H. fold (gx m) in H. unfold M, identity_entry.
    transitivity (csum (fun k => gx m k * G k j) 2 - G m j)%C; [|unfold gx; rewrite H; ring].
    destruct m as [|[|m]]; [| |lia]; cbn [csum Nat.eqb]; ring. }
  assert (Z : inner (fun i => conj (r i)) (fun i => conj (r i)) N = RtoC 0).
  { unfold inner. transitivity (csum (fun j => csum (fun k => M k * G k j) 2 * conj (M j))%C 2).
    - unfold G. transitivity (csum (fun i => csum (fun j => csum (fun k => M k * (A i k * conj (A i j))) 2 * conj (M j)) 2)%C N).
      + apply csum_ext. intros j _. rewrite conj_conj. unfold r. rewrite conj_csum. cbn [csum]. rewrite !conj_mult. ring.
      + rewrite csum_swap. apply csum_ext. intros j _. rewrite csum_scal_r. f_equal. rewrite csum_swap. apply csum_ext. intros k _. rewrite csum_scal. reflexivity.
    - rewrite (csum_ext _ (fun _ => RtoC 0)); [apply csum_0|]. intros j Hj. rewrite EM by exact Hj. ring. }
  rewrite inner_self in Z. rewrite <- Er. assert (Zi : conj (r i) = RtoC 0) by (apply (energy_zero (fun i => conj (r i)) N); [unfold RtoC in Z; congruence|exact Hi]).
  rewrite <- (conj_conj (r i)), Zi. apply conj_R.
Qed.
Lemma null_sum : forall m, (m < 2)%nat ->
  csum (fun i => (a0 i - csum (fun j => csum (fun l => csum (fun k => conj (A i k) * X k l) 2 * A j l) 2 * a0 j) N) * A i m)%C N = RtoC 0.
Proof.
  intros m Hm.
  assert (E1 : forall i, csum (fun j => csum (fun l => csum (fun k => conj (A i k) * X k l) 2 * A j l) 2 * a0 j)%C N = csum (fun l => csum (fun k => conj (A i k) * X k l) 2 * b l)%C 2).
  { intros i. transitivity (csum (fun j => csum (fun l => csum (fun k => conj (A i k) * X k l) 2 * (A j l * a0 j)) 2)%C N).
    - apply csum_ext. intros j _. rewrite <- csum_scal_r. apply csum_ext. intros l _. ring.
    - rewrite csum_swap. apply csum_ext. intros l _. unfold b. rewrite csum_scal. reflexivity. }
  transitivity (b m - csum (fun l => gx m l * b l) 2)%C.
  - transitivity (csum (fun i => A i m * a0 i + (- RtoC 1) * (csum (fun l => csum (fun k => conj (A i k) * X k l) 2 * b l) 2 * A i m))%C N).
    + apply csum_ext. intros i _. rewrite E1. ring.
    + rewrite csum_plus, csum_scal. fold (b m). unfold Cminus. f_equal.
      transitivity (- csum (fun i => csum (fun l => csum (fun k => conj (A i k) * X k l) 2 * b l) 2 * A i m) N)%C; [ring|]. f_equal.
      unfold gx, G. transitivity (csum (fun i => csum (fun l => csum (fun k => A i m * conj (A i k) * X k l) 2 * b l) 2)%C N).
      * apply csum_ext. intros i _. cbn [csum]. ring.
      * rewrite csum_swap. apply csum_ext. intros l _. rewrite csum_scal_r. f_equal. rewrite csum_swap. apply csum_ext. intros k _. rewrite csum_scal_r. reflexivity.
  - unfold b. transitivity (csum (fun j => (- RtoC 1) * (csum (fun k => gx m k * A j k) 2 - A j m) * a0 j)%C N).
    + transitivity (csum (fun j => A j m * a0 j + (- RtoC 1) * (csum (fun k => gx m k * A j k) 2 * a0 j))%C N).
      * rewrite csum_plus, csum_scal. unfold Cminus. f_equal. transitivity (- csum (fun j => csum (fun k => gx m k * A j k) 2 * a0 j) N)%C; [|ring]. f_equal.
        transitivity (csum (fun j => csum (fun k => gx m k * (A j k * a0 j)) 2)%C N).
        -- rewrite csum_swap. apply csum_ext. intros k _. rewrite csum_scal. reflexivity.
        -- apply csum_ext. intros j _. cbn [csum]. ring.
      * apply csum_ext. intros j _. ring.
    + rewrite (csum_ext _ (fun _ => RtoC 0)); [apply csum_0|]. intros j Hj. rewrite residual_zero by assumption. ring.
Qed.
End Null.
