(** Lemmas about spatially consistent random variables. *)
From Coq Require Import List Reals ZArith Lia Lra Bool Arith.
From Coquelicot Require Import Coquelicot.
From Verif Require Import Base BaseLemmas Rot_Model Rot_Proofs Cons_Model Cons_Spec.
Import ListNotations.
Open Scope R_scope.

(** ** Registration *)
Definition tot (w : world) (l : list nat) : nat := list_sum (map (size w) l).
Record registered (sh : nat -> list nat) (l : list (nat * nat)) (w : world) : Prop := {
  r_shape : shape w = sh;
  r_in : forall g v, In v (g_variables (generators w g)) <-> In (g, v) l;
  r_nodup : forall g, NoDup (g_variables (generators w g));
  r_prefix : forall g pre v post, g_variables (generators w g) = pre ++ v :: post -> offset w v = tot w pre;
  r_offset : forall g, g_offset (generators w g) = tot w (g_variables (generators w g)) }.
Lemma list_sum_app : forall a b, list_sum (a ++ b) = (list_sum a + list_sum b)%nat.
Proof. induction a as [ | x a IH]; intros b; [ reflexivity | ]. cbn [app list_sum fold_right] in *. unfold list_sum in *. cbn [fold_right app]. rewrite IH. lia. Qed.
Lemma tot_app : forall w a b, tot w (a ++ b) = (tot w a + tot w b)%nat.
Proof. intros. unfold tot. rewrite map_app. apply list_sum_app. Qed.
Lemma add_registered : forall sh l w g v, one_owner (l ++ [(g, v)]) -> registered sh l w -> registered sh (l ++ [(g, v)]) (fst (add_variable w g v)).
Proof.
  intros sh l w g v Ho [H1 H2 H3 H4 H5]. unfold add_variable. destruct (existsb (Nat.eqb v) (g_variables (generators w g))) eqn:E; cbn [fst].
  - apply existsb_exists in E as [u [Hu Eu]]. apply Nat.eqb_eq in Eu. subst u. apply H2 in Hu. constructor; try assumption.
    intros h u. rewrite H2, in_app_iff. cbn [In]. split; [ intros K; left; exact K | intros [K | [K | []]]; [ exact K | injection K as <- <-; exact Hu ] ].
  - assert (Hn : ~ In v (g_variables (generators w g))). { intros K. assert (existsb (Nat.eqb v) (g_variables (generators w g)) = true) by (apply existsb_exists; exists v; split; [ exact K | apply Nat.eqb_refl ]). congruence. }
    set (w' := World _ _ _). assert (Hs : forall u, size w' u = size w u) by reflexivity.
    assert (Ht : forall m, tot w' m = tot w m) by (intros m; unfold tot; f_equal).
    assert (Hg : forall h, g_variables (generators w' h) = if Nat.eqb h g then g_variables (generators w g) ++ [v] else g_variables (generators w h)) by (intros h; unfold w', update; cbn [generators]; destruct (Nat.eqb h g); reflexivity).
    assert (Hv : forall h, In v (g_variables (generators w h)) -> h = g). { intros h K. apply H2 in K. apply (Ho h g v); apply in_or_app; [ left; exact K | right; left; reflexivity ]. }
    constructor.
    + exact H1.
    + intros h u. rewrite Hg, in_app_iff. cbn [In]. destruct (Nat.eqb_spec h g) as [-> | Hh].
      * rewrite in_app_iff, H2. cbn [In]. split; [ intros [K | [K | []]]; [ left; exact K | right; left; congruence ] | intros [K | [K | []]]; [ left; exact K | right; left; congruence ] ].
      * rewrite H2. split; [ intros K; left; exact K | intros [K | [K | []]]; [ exact K | congruence ] ].
    + intros h. rewrite Hg. destruct (Nat.eqb_spec h g) as [-> | Hh]; [ | apply H3 ].
      apply (NoDup_Add (a := v) (l := g_variables (generators w g))); [ rewrite <- (app_nil_r (g_variables (generators w g))) at 1; apply Add_app | split; [ apply H3 | exact Hn ] ].
    + intros h pre u post K. rewrite Hg in K. rewrite Ht. unfold w', update. cbn [offset]. destruct (Nat.eqb_spec h g) as [-> | Hh].
      * destruct (Nat.eqb_spec u v) as [-> | Hu].
        -- rewrite H5. destruct post as [ | q post] using rev_ind.
           ++ apply app_inj_tail in K as [K _]. rewrite <- K. reflexivity.
           ++ exfalso. rewrite app_comm_cons, app_assoc in K. apply app_inj_tail in K as [K _]. apply Hn. rewrite K. apply in_or_app. right. left. reflexivity.
        -- destruct post as [ | q post] using rev_ind; [ apply app_inj_tail in K as [_ K]; congruence | ].
           rewrite app_comm_cons, app_assoc in K. apply app_inj_tail in K as [K _]. apply (H4 g _ _ _ K).
      * destruct (Nat.eqb_spec u v) as [-> | Hu]; [ exfalso; apply Hh; apply Hv; rewrite K; apply in_or_app; right; left; reflexivity | apply (H4 h _ _ _ K) ].
    + intros h. rewrite Ht. unfold w', update. cbn [generators]. destruct (Nat.eqb_spec h g) as [-> | Hh]; [ | apply H5 ].
      cbn [g_offset g_variables]. rewrite tot_app, H5. unfold tot at 3. cbn. lia.
Qed.
Lemma add_all_registered : forall sh l, one_owner l -> registered sh l (add_all (fresh sh) l).
Proof.
  intros sh l. induction l as [ | [g v] l IH] using rev_ind; intros H.
  - constructor; try reflexivity; cbn; try tauto; [ intros; constructor | intros g [ | x pre] v post K; discriminate ].
  - unfold add_all. rewrite fold_left_app. cbn [fold_left fst snd]. apply add_registered; [ exact H | ]. apply IH. intros a b u Ha Hb. apply (H a b u); apply in_or_app; left; assumption.
Qed.
Lemma num_scalars_tot : forall w g, num_scalars w g = tot w (g_variables (generators w g)).
Proof.
  intros w g. unfold num_scalars, tot. assert (K : forall l n, fold_left (fun n v => (n + size w v)%nat) l n = (n + list_sum (map (size w) l))%nat); [ | apply K ].
  induction l as [ | v l IH]; intros n; cbn [fold_left map]; [ unfold list_sum; cbn; lia | ]. rewrite IH. unfold list_sum. cbn [fold_right]. lia.
Qed.
Lemma slices : forall sh l w g, registered sh l w ->
  (forall v, In (g, v) l -> (offset w v + size w v <= num_scalars w g)%nat) /\
  (forall u v, In (g, u) l -> In (g, v) l -> u <> v -> (offset w u + size w u <= offset w v \/ offset w v + size w v <= offset w u)%nat) /\
  (forall k, (k < num_scalars w g)%nat -> exists v, In (g, v) l /\ owns w v k).
Proof.
  intros sh l w g [H1 H2 H3 H4 H5]. rewrite num_scalars_tot. split; [ | split ].
  - intros v Hv. apply H2 in Hv. apply in_split in Hv as [pre [post E]]. rewrite (H4 g _ _ _ E), E, tot_app. unfold tot at 3. cbn [map]. unfold list_sum. cbn [fold_right]. lia.
  - intros u v Hu Hv Hn. apply H2 in Hu, Hv. apply in_split in Hu as [pre [post E]]. rewrite E in Hv. apply in_app_iff in Hv as [Hv | [Hv | Hv]]; [ | contradiction | ].
    + right. apply in_split in Hv as [a [b F]]. rewrite (H4 g _ _ _ E). rewrite F, <- app_assoc in E. cbn [app] in E. rewrite (H4 g _ _ _ E), F, tot_app. unfold tot at 3. cbn [map]. unfold list_sum. cbn [fold_right]. lia.
    + left. apply in_split in Hv as [a [b F]]. rewrite (H4 g _ _ _ E). rewrite F in E. rewrite app_comm_cons, app_assoc in E. rewrite (H4 g _ _ _ E), tot_app. unfold tot at 3. cbn [map]. unfold list_sum. cbn [fold_right]. lia.
  - intros k Hk.
    assert (K : forall post pre, g_variables (generators w g) = pre ++ post -> (tot w pre <= k)%nat -> exists v, In (g, v) l /\ owns w v k).
    { induction post as [ | v post IH]; intros pre E Hp; [ rewrite app_nil_r in E; rewrite E in Hk; lia | ].
      destruct (le_lt_dec (tot w pre + size w v) k) as [Hl | Hl].
      - apply (IH (pre ++ [v])); [ rewrite <- app_assoc; exact E | ]. rewrite tot_app. unfold tot at 2. cbn. lia.
      - exists v. split; [ apply H2; rewrite E; apply in_or_app; right; left; reflexivity | ]. unfold owns. rewrite (H4 g _ _ _ E). lia. }
    apply (K (g_variables (generators w g)) []); [ reflexivity | unfold tot; cbn; lia ].
Qed.
Lemma fetch_ok : forall w v s, (offset w v + size w v <= length s)%nat ->
  exists l, fetch w v s = Ok l /\ length l = size w v /\ forall i, (i < size w v)%nat -> nth i l 0 = nth (offset w v + i) s 0.
Proof.
  intros w v s H. unfold fetch. assert (L : length (firstn (size w v) (skipn (offset w v) s)) = size w v) by (rewrite firstn_length, skipn_length; lia).
  rewrite L, Nat.eqb_refl. eexists. split; [ reflexivity | ]. split; [ exact L | ]. intros i Hi.
  assert (N : forall (l : list R) n j, (j < n)%nat -> nth j (firstn n l) 0 = nth j l 0).
  { induction l as [ | x l IH]; intros n j Hj; [ rewrite firstn_nil; reflexivity | ]. destruct n; [ lia | ]. destruct j; [ reflexivity | ]. cbn [firstn nth]. apply IH. lia. }
  rewrite N by exact Hi. clear - Hi. revert s. induction (offset w v) as [ | o IH]; intros s; [ reflexivity | ]. destruct s as [ | x s]; [ destruct i; reflexivity | ]. cbn [skipn]. rewrite IH. reflexivity.
Qed.
Lemma length_sample : forall r a b, length (sample r a b) = scalars_of r.
Proof. intros [l | k l] a b; cbn [sample scalars_of]; [ reflexivity | apply map_length ]. Qed.
(** Registered variables keep their offsets when others are registered *)
Lemma kept_offset : forall sh l m w g v, one_owner (l ++ m) -> w = add_all (fresh sh) l -> In (g, v) l -> offset (add_all w m) v = offset w v /\ size (add_all w m) v = size w v.
Proof.
  intros sh l m w g v Ho -> Hin. assert (K : forall m l, one_owner (l ++ m) -> In (g, v) l -> offset (add_all (add_all (fresh sh) l) m) v = offset (add_all (fresh sh) l) v /\ size (add_all (add_all (fresh sh) l) m) v = size (add_all (fresh sh) l) v); [ | apply K; assumption ].
  clear. induction m as [ | [h u] m IH]; intros l Ho Hin; [ split; reflexivity | ].
  assert (E : add_all (add_all (fresh sh) l) ((h, u) :: m) = add_all (add_all (fresh sh) (l ++ [(h, u)])) m) by (unfold add_all; rewrite <- !fold_left_app, <- app_assoc; reflexivity).
  rewrite E. assert (Ho' : one_owner ((l ++ [(h, u)]) ++ m)) by (rewrite <- app_assoc; exact Ho).
  destruct (IH _ Ho' (in_or_app _ _ _ (or_introl Hin))) as [A B]. rewrite A, B. unfold add_all. rewrite fold_left_app. cbn [fold_left fst snd]. fold (add_all (fresh sh) l).
  assert (R : registered sh l (add_all (fresh sh) l)) by (apply add_all_registered; intros a b c Ha Hb; apply (Ho a b c); apply in_or_app; left; assumption).
  unfold add_variable. destruct (existsb _ _) eqn:F; cbn [fst]; [ split; reflexivity | ]. split; [ | reflexivity ]. cbn [offset]. unfold update.
  destruct (Nat.eqb_spec v u) as [<- | Hn]; [ | reflexivity ]. exfalso.
  assert (h = g) by (apply (Ho h g v); apply in_or_app; [ right; left; reflexivity | left; exact Hin ]). subst h.
  assert (existsb (Nat.eqb v) (g_variables (generators (add_all (fresh sh) l) g)) = true); [ | congruence ].
  apply existsb_exists. exists v. split; [ apply (r_in _ _ _ R); exact Hin | apply Nat.eqb_refl ].
Qed.

(** ** Samples *)
Lemma fold_cos : forall a b l, fold_right (fun s acc => cos (dot a (f_a s) + dot b (f_b s) + phase s) + acc) 0 l = sum (fun s => cos (dot a (f_a s) + dot b (f_b s) + phase s)) l.
Proof. intros a b l. induction l as [ | s l IH]; [ reflexivity | ]. cbn [fold_right sum]. rewrite IH. reflexivity. Qed.
Lemma sum_bound : forall {A} (f g : A -> R) l, (forall s, In s l -> Rabs (f s) <= g s) -> Rabs (sum f l) <= sum g l.
Proof.
  intros A f g l. induction l as [ | s l IH]; intros H; cbn [sum]; [ rewrite Rabs_R0; lra | ].
  eapply Rle_trans; [ apply Rabs_triang | ]. apply Rplus_le_compat; [ apply H; left; reflexivity | apply IH; intros q Hq; apply H; right; exact Hq ].
Qed.
Lemma sum_minus : forall {A} (f g : A -> R) l, sum f l - sum g l = sum (fun s => f s - g s) l.
Proof. intros A f g l. induction l as [ | s l IH]; cbn [sum]; [ ring | ]. rewrite <- IH. ring. Qed.
Lemma sum_const : forall {A} (c : R) (l : list A), sum (fun _ => c) l = INR (length l) * c.
Proof. intros A c l. induction l as [ | s l IH]; [ cbn; ring | ]. cbn [sum length]. rewrite S_INR, IH. ring. Qed.
Lemma cos_lipschitz : forall x y, Rabs (cos x - cos y) <= Rabs (x - y).
Proof.
  intros x y. destruct (MVT_gen cos y x (fun t => - sin t)) as [c [_ E]].
  - intros t _. auto_derive; [ trivial | ring ].
  - intros t _. apply continuity_cos.
  - rewrite E, Rabs_mult, Rabs_Ropp. rewrite <- (Rmult_1_l (Rabs (x - y))) at 2. apply Rmult_le_compat_r; [ apply Rabs_pos | ]. apply Rabs_le. destruct (SIN_bound c). lra.
Qed.
Lemma vec_lagrange : forall a b, dot a b ^ 2 <= dot a a * dot b b.
Proof.
  intros [a1 a2 a3] [b1 b2 b3]. unfold dot. cbn [vx vy vz].
  assert (H1 := pow2_ge_0 (a1 * b2 - a2 * b1)). assert (H2 := pow2_ge_0 (a1 * b3 - a3 * b1)). assert (H3 := pow2_ge_0 (a2 * b3 - a3 * b2)). lra.
Qed.
Lemma vec_cauchy : forall a b, Rabs (dot a b) <= norm a * norm b.
Proof.
  intros a b. assert (Pa : 0 <= norm a) by apply sqrt_pos. assert (Pb : 0 <= norm b) by apply sqrt_pos. rewrite <- (Rabs_pos_eq (norm a * norm b)) by (apply Rmult_le_pos; assumption).
  apply Rsqr_le_abs_0. unfold Rsqr. assert (H := vec_lagrange a b). rewrite <- !norm_sqr in H. nra.
Qed.
Lemma frequency_norm : forall d, 0 <= radial d -> norm (frequency d) = 2 * PI * radial d.
Proof.
  intros d H. unfold frequency. cbv zeta. set (z := acos _). assert (Hp := PI_RGT_0). unfold norm.
  replace (dot _ _) with ((2 * PI * radial d) * (2 * PI * radial d)); [ apply sqrt_square; apply Rmult_le_pos; lra | ].
  unfold dot, vscale. cbn [vx vy vz]. assert (A := sc2 (azimuth d)). assert (B := sc2 z). set (k := 2 * PI * radial d).
  transitivity (k * k * ((sin (azimuth d) * sin (azimuth d) + cos (azimuth d) * cos (azimuth d)) * (sin z * sin z) + cos z * cos z)); [ rewrite A, Rmult_1_l, B; ring | ring ].
Qed.

(** ** Radial velocities *)
Lemma denominator : forall a f, 0 < a -> 0 < 4 * PI ^ 2 * f ^ 2 + a ^ 2.
Proof. intros a f H. assert (0 <= 4 * PI ^ 2 * f ^ 2) by (assert (A := pow2_ge_0 PI); assert (B := pow2_ge_0 f); nra). assert (0 < a ^ 2) by (apply pow_lt; exact H). lra. Qed.
Lemma cdf_derive : forall a u f, 0 < a -> is_derive (fun t => radial_cdf t a u) f (32 * PI ^ 2 * a * f ^ 2 / (4 * PI ^ 2 * f ^ 2 + a ^ 2) ^ 2).
Proof.
  intros a u f H. assert (D := denominator a f H). assert (Hp := PI_RGT_0). unfold radial_cdf. auto_derive.
  - lra.
  - assert (E : 1 + (2 * PI * f / a) ^ 2 <> 0) by (assert (X := pow2_ge_0 (2 * PI * f / a)); lra). field_simplify_eq; [ ring | ].
    repeat split; try lra; nra.
Qed.
Lemma cdf_zero : forall a u, 0 < a -> radial_cdf 0 a u = - u.
Proof. intros a u H. unfold radial_cdf. rewrite Rmult_0_r. unfold Rdiv at 2. rewrite Rmult_0_l, atan_0. field. split; [ nra | apply PI_neq0 ]. Qed.
Lemma weakly_increasing : forall (f df : R -> R), (forall t, is_derive f t (df t)) -> (forall t, 0 <= df t) -> forall x y, x <= y -> f x <= f y.
Proof.
  intros f df Hd Hp x y H. destruct (MVT_gen f x y df) as [c [_ E]].
  - intros t _. apply Hd.
  - intros t _. apply derivable_continuous_pt. eexists. apply is_derive_Reals. apply Hd.
  - assert (0 <= df c * (y - x)) by (apply Rmult_le_pos; [ apply Hp | lra ]). lra.
Qed.
Lemma cdf_weakly_increasing : forall a u f g, 0 < a -> f <= g -> radial_cdf f a u <= radial_cdf g a u.
Proof.
  intros a u f g Ha H.
  apply (weakly_increasing (fun t => radial_cdf t a u) (fun t => 32 * PI ^ 2 * a * t ^ 2 / (4 * PI ^ 2 * t ^ 2 + a ^ 2) ^ 2)); [ | | exact H ].
  - intros t. apply cdf_derive. exact Ha.
  - intros t. assert (D := denominator a t Ha). apply Rmult_le_pos.
    + apply Rmult_le_pos; [ | apply pow2_ge_0 ]. apply Rmult_le_pos; [ | lra ]. apply Rmult_le_pos; [ lra | apply pow2_ge_0 ].
    + left. apply Rinv_0_lt_compat. apply pow_lt. exact D.
Qed.
Lemma cdf_increasing : forall a u f g, 0 < a -> 0 <= f -> f < g -> radial_cdf f a u < radial_cdf g a u.
Proof.
  intros a u f g Ha Hf H. apply Rle_lt_trans with (radial_cdf ((f + g) / 2) a u); [ apply cdf_weakly_increasing; lra | ].
  apply (incr_function (fun t => radial_cdf t a u) 0 p_infty (fun t => 32 * PI ^ 2 * a * t ^ 2 / (4 * PI ^ 2 * t ^ 2 + a ^ 2) ^ 2)); [ | | cbn; lra | lra | exact I ].
  - intros t _ _. apply cdf_derive. exact Ha.
  - intros t Ht _. cbn in Ht. assert (D := denominator a t Ha). assert (Hp := PI_RGT_0). apply Rmult_lt_0_compat.
    + apply Rmult_lt_0_compat; [ | apply pow_lt; exact Ht ]. apply Rmult_lt_0_compat; [ | lra ]. apply Rmult_lt_0_compat; [ lra | apply pow_lt; exact Hp ].
    + apply Rinv_0_lt_compat. apply pow_lt. exact D.
Qed.
Lemma atan_below : forall x, 0 <= x -> atan x <= x.
Proof.
  intros x H. assert (K : 0 - atan 0 <= x - atan x); [ | rewrite atan_0 in K; lra ].
  apply (weakly_increasing (fun t => t - atan t) (fun t => 1 - / (1 + t ^ 2))); [ | | exact H ].
  - intros t. auto_derive; [ trivial | ]. field. assert (A := pow2_ge_0 t). nra.
  - intros t. assert (A := pow2_ge_0 t). assert (B : / (1 + t ^ 2) <= / 1) by (apply Rinv_le_contravar; lra). rewrite Rinv_1 in B. lra.
Qed.
Lemma cdf_lower : forall a u f, 0 < a -> 0 < f -> 1 - 2 * a / (PI ^ 2 * f) - u <= radial_cdf f a u.
Proof.
  intros a u f Ha Hf. assert (Hp := PI_RGT_0). unfold radial_cdf. set (t := 2 * PI * f / a).
  assert (Ht : 0 < t) by (unfold t; apply Rmult_lt_0_compat; [ nra | apply Rinv_0_lt_compat; exact Ha ]).
  assert (E : atan t = PI / 2 - atan (/ t)) by (rewrite atan_inv by exact Ht; ring).
  assert (A : atan (/ t) <= / t) by (apply atan_below; left; apply Rinv_0_lt_compat; exact Ht).
  assert (B : 4 * a * f / (4 * PI ^ 2 * f ^ 2 + a ^ 2) <= a / (PI ^ 2 * f)).
  { replace (a / (PI ^ 2 * f)) with (4 * a * f / (4 * PI ^ 2 * f ^ 2)) by (field; lra).
    apply Rmult_le_compat_l; [ nra | ]. apply Rinv_le_contravar; [ | assert (X := pow2_ge_0 a); lra ]. assert (X : 0 < PI ^ 2) by (apply pow_lt; exact Hp). assert (Y : 0 < f ^ 2) by (apply pow_lt; exact Hf). nra. }
  assert (C : 2 / PI * (PI / 2 - / t) <= 2 / PI * atan t) by (rewrite E; apply Rmult_le_compat_l; [ left; apply Rmult_lt_0_compat; [ lra | apply Rinv_0_lt_compat; exact Hp ] | lra ]).
  replace (2 / PI * (PI / 2 - / t)) with (1 - a / (PI ^ 2 * f)) in C by (unfold t; field; repeat split; lra).
  replace (2 * a / (PI ^ 2 * f)) with (a / (PI ^ 2 * f) + a / (PI ^ 2 * f)) by (field; lra). lra.
Qed.
Lemma cdf_reaches : forall a u f, 0 < a -> u < 1 -> 0 < f -> 2 * a / (PI ^ 2 * (1 - u)) <= f -> 0 <= radial_cdf f a u.
Proof.
  intros a u f Ha Hu Hf H. assert (Hp := PI_RGT_0). eapply Rle_trans; [ | apply cdf_lower; assumption ]. assert (X : 0 < PI ^ 2) by (apply pow_lt; exact Hp).
  assert (2 * a / (PI ^ 2 * f) <= 1 - u); [ | lra ].
  apply (Rmult_le_reg_r (PI ^ 2 * f)); [ nra | ]. unfold Rdiv. rewrite Rmult_assoc, Rinv_l by nra.
  apply (Rmult_le_compat_r (PI ^ 2 * (1 - u))) in H; [ | nra ]. unfold Rdiv in H. rewrite Rmult_assoc, Rinv_l in H by nra. lra.
Qed.
Lemma expand_enough : forall fuel m a u r, 0 < m -> expand fuel m a u = Some r -> m <= r /\ 0 <= radial_cdf r a u.
Proof.
  induction fuel as [ | n IH]; intros m a u r Hm H; cbn [expand] in H; destruct (Rlt_dec (radial_cdf m a u) 0).
  - discriminate.
  - injection H as <-. lra.
  - destruct (IH (m * 2) a u r ltac:(lra) H). lra.
  - injection H as <-. lra.
Qed.
Lemma expand_terminates : forall a u m, 0 < a -> u < 1 -> 0 < m -> exists fuel r, expand fuel m a u = Some r.
Proof.
  intros a u m Ha Hu Hm. set (T := 2 * a / (PI ^ 2 * (1 - u))).
  assert (K : forall fuel m, 0 < m -> T <= m * 2 ^ fuel -> exists r, expand fuel m a u = Some r).
  { induction fuel as [ | n IH]; intros q Hq H; cbn [expand].
    - destruct (Rlt_dec (radial_cdf q a u) 0) as [L | L]; [ | eexists; reflexivity ]. exfalso. assert (0 <= radial_cdf q a u) by (apply cdf_reaches; try assumption; cbn in H; unfold T in H; lra). lra.
    - destruct (Rlt_dec (radial_cdf q a u) 0) as [L | L]; [ | eexists; reflexivity ]. apply IH; [ lra | ]. cbn [pow] in H. lra. }
  destruct (Pow_x_infinity 2 ltac:(rewrite Rabs_pos_eq; lra) (T / m)) as [n Hn]. exists n. apply K; [ exact Hm | ].
  specialize (Hn n (le_n n)). rewrite Rabs_pos_eq in Hn by (apply pow_le; lra). apply Rge_le in Hn. apply (Rmult_le_compat_l m) in Hn; [ | lra ]. unfold Rdiv in Hn. replace (m * (T * / m)) with T in Hn by (field; lra). exact Hn.
Qed.
Lemma cdf_continuous : forall a u, 0 < a -> continuity (fun t => radial_cdf t a u).
Proof. intros a u Ha t. apply derivable_continuous_pt. eexists. apply is_derive_Reals. apply cdf_derive. exact Ha. Qed.
Lemma cdf_root : forall a u b, 0 < a -> 0 <= u -> 0 <= b -> 0 <= radial_cdf b a u -> exists f, 0 <= f <= b /\ radial_cdf f a u = 0.
Proof.
  intros a u b Ha Hu Hb H. destruct (IVT_gen (fun t => radial_cdf t a u) 0 b 0) as [f [Hf E]].
  - intros t. apply (cdf_continuous a u Ha t).
  - rewrite cdf_zero by exact Ha. split; [ eapply Rle_trans; [ apply Rmin_l | lra ] | eapply Rle_trans; [ exact H | apply Rmax_r ] ].
  - exists f. rewrite Rmin_left, Rmax_right in Hf by exact Hb. split; [ exact Hf | exact E ].
Qed.
Lemma expand_fuel : forall n m a u r k, expand n m a u = Some r -> expand (n + k) m a u = Some r.
Proof.
  induction n as [ | n IH]; intros m a u r k H; cbn [expand Nat.add] in *.
  - destruct (Rlt_dec (radial_cdf m a u) 0) eqn:E; [ discriminate | ]. destruct k; cbn [expand]; rewrite E; exact H.
  - destruct (Rlt_dec (radial_cdf m a u) 0); [ apply IH; exact H | exact H ].
Qed.
Lemma bounds_fuel : forall us n m a l k, bounds n m a us = Some l -> bounds (n + k) m a us = Some l.
Proof.
  induction us as [ | u us IH]; intros n m a l k H; cbn [bounds] in *; [ exact H | ].
  destruct (expand n m a u) as [r | ] eqn:E; [ | discriminate ]. rewrite (expand_fuel _ _ _ _ _ k E).
  destruct (bounds n r a us) as [q | ] eqn:F; [ | discriminate ]. rewrite (IH _ _ _ _ k F). exact H.
Qed.
Lemma bounds_terminate : forall us m a, 0 < a -> 0 < m -> (forall u, In u us -> u < 1) ->
  exists fuel l, bounds fuel m a us = Some l /\ Forall2 (fun u b => 0 < b /\ 0 <= radial_cdf b a u) us l.
Proof.
  induction us as [ | u us IH]; intros m a Ha Hm Hu; [ exists O, []; split; [ reflexivity | constructor ] | ].
  destruct (expand_terminates a u m Ha (Hu u (or_introl eq_refl)) Hm) as [n [r E]]. destruct (expand_enough _ _ _ _ _ Hm E) as [Hr Hc].
  destruct (IH r a Ha ltac:(lra) (fun v Hv => Hu v (or_intror Hv))) as [k [l [F G]]].
  exists (n + k)%nat, (r :: l). split; [ | constructor; [ lra | exact G ] ].
  cbn [bounds]. rewrite (expand_fuel _ _ _ _ _ k E). rewrite Nat.add_comm, (bounds_fuel _ _ _ _ _ n F). reflexivity.
Qed.
Lemma cdf_negative : forall a u f, a <> 0 -> radial_cdf f (- a) u = - radial_cdf f a 0 - u.
Proof.
  intros a u f H. unfold radial_cdf. replace (2 * PI * f / - a) with (- (2 * PI * f / a)) by (field; exact H). rewrite atan_opp.
  replace ((- a) ^ 2) with (a ^ 2) by ring. unfold Rdiv. ring.
Qed.
Lemma expand_forever : forall n m a u, a < 0 -> 0 <= u -> 0 < m -> expand n m a u = None.
Proof.
  induction n as [ | n IH]; intros m a u Ha Hu Hm; cbn [expand];
    (assert (N : radial_cdf m a u < 0); [ replace a with (- - a) by ring; rewrite cdf_negative by lra; assert (K := cdf_increasing (- a) 0 0 m ltac:(lra) ltac:(lra) Hm); rewrite cdf_zero in K by lra; lra | ]);
    destruct (Rlt_dec (radial_cdf m a u) 0); [ reflexivity | contradiction | apply IH; lra | contradiction ].
Qed.
Lemma sample_bound : forall k l a b, (0 < k)%nat -> length l = k -> Rabs (sample_scalar k l a b) <= sqrt (2 * INR k).
Proof.
  intros k l a b Hk Hl. unfold sample_scalar. rewrite fold_cos, Rabs_mult. assert (P : 0 < INR k) by (apply lt_0_INR; exact Hk).
  rewrite Rabs_pos_eq by apply sqrt_pos. apply Rle_trans with (sqrt (2 / INR k) * INR k).
  - apply Rmult_le_compat_l; [ apply sqrt_pos | ]. eapply Rle_trans; [ apply (sum_bound _ (fun _ => 1)) | rewrite sum_const, Hl; lra ].
    intros s _. apply Rabs_le. destruct (COS_bound (dot a (f_a s) + dot b (f_b s) + phase s)). lra.
  - right. assert (E : INR k = sqrt (INR k * INR k)) by (symmetry; apply sqrt_square; lra). rewrite E at 2. rewrite <- sqrt_mult; [ | apply Rmult_le_pos; [ lra | left; apply Rinv_0_lt_compat; exact P ] | nra ].
    f_equal. field. lra.
Qed.
Lemma dot_diff : forall a a' f, dot a f - dot a' f = dot (vsub a a') f.
Proof. intros [a1 a2 a3] [b1 b2 b3] [c1 c2 c3]. unfold dot, vsub. cbn [vx vy vz]. ring. Qed.
Lemma sample_lipschitz : forall k l a b a' b',
  Rabs (sample_scalar k l a b - sample_scalar k l a' b') <= sqrt (2 / INR k) * sum (fun s => norm (f_a s) * norm (vsub a a') + norm (f_b s) * norm (vsub b b')) l.
Proof.
  intros k l a b a' b'. unfold sample_scalar. rewrite !fold_cos, <- Rmult_minus_distr_l, Rabs_mult, Rabs_pos_eq by apply sqrt_pos.
  apply Rmult_le_compat_l; [ apply sqrt_pos | ]. rewrite sum_minus. apply sum_bound. intros s _. eapply Rle_trans; [ apply cos_lipschitz | ].
  replace (dot a (f_a s) + dot b (f_b s) + phase s - (dot a' (f_a s) + dot b' (f_b s) + phase s)) with (dot (vsub a a') (f_a s) + dot (vsub b b') (f_b s)) by (rewrite <- !dot_diff; ring).
  eapply Rle_trans; [ apply Rabs_triang | ]. rewrite (Rmult_comm (norm (f_a s))), (Rmult_comm (norm (f_b s))). apply Rplus_le_compat; apply vec_cauchy.
Qed.
Lemma sum_map : forall {A B} (f : B -> R) (g : A -> B) l, sum f (map g l) = sum (fun x => f (g x)) l.
Proof. intros A B f g l. induction l as [ | x l IH]; [ reflexivity | ]. cbn [map sum]. rewrite IH. reflexivity. Qed.
Lemma sum_ext : forall {A} (f g : A -> R) l, (forall x, In x l -> f x = g x) -> sum f l = sum g l.
Proof. intros A f g l H. induction l as [ | x l IH]; [ reflexivity | ]. cbn [sum]. rewrite H by (left; reflexivity). rewrite IH; [ reflexivity | intros y Hy; apply H; right; exact Hy ]. Qed.
Lemma map_fetch : forall {A} (f : R -> A) w v s l, fetch w v s = Ok l -> (do x <- fetch w v s; Ok (map f x)) = Ok (map f l).
Proof. intros A f w v s l ->. reflexivity. Qed.
Lemma scalars_realized : forall w g d k n s r, realize w g d k n s = Ok r -> scalars_of r = num_scalars w g.
Proof.
  intros w g [ | d] k n s r H; cbn [realize] in H; [ injection H as <-; cbn; rewrite map_length, seq_length; reflexivity | ].
  destruct (Req_EM_T d 0); [ discriminate | ]. injection H as <-. cbn. rewrite map_length, seq_length. reflexivity.
Qed.
