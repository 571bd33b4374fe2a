(** Theorems about spatially consistent random variables (C97). *)
From Coq Require Import List Reals ZArith Lia Lra Bool Arith.
From Verif Require Import Base BaseLemmas Rot_Model Rot_Proofs Cons_Model Cons_Spec Cons_Proofs.
Import ListNotations.
Open Scope R_scope.

(** Whatever variables are registered, in whatever order and however often, as long as each of them belongs to one generator:
    the scalars of a generator are divided among its variables, without overlap and without a rest. *)
Theorem C97_slices : forall sh l g, one_owner l ->
  let w := add_all (fresh sh) l in
  (forall v, size w v = fold_right Nat.mul 1%nat (sh v)) /\
  (forall v k, In (g, v) l -> owns w v k -> (k < num_scalars w g)%nat) /\
  (forall u v k, In (g, u) l -> In (g, v) l -> owns w u k -> owns w v k -> u = v) /\
  (forall k, (k < num_scalars w g)%nat -> exists v, In (g, v) l /\ owns w v k).
Proof.
  intros sh l g H w. assert (R : registered sh l w) by (apply add_all_registered; exact H). destruct (slices sh l w g R) as [A [B D]].
  split; [ intros v; unfold size; rewrite (r_shape _ _ _ R); reflexivity | ].
  split; [ intros v k Hv Hk; unfold owns in Hk; specialize (A v Hv); lia | ]. split; [ | exact D ].
  intros u v k Hu Hv Ku Kv. destruct (Nat.eq_dec u v) as [E | E]; [ exact E | ]. unfold owns in *. destruct (B u v Hu Hv E); lia.
Qed.
Print Assumptions C97_slices.
(** Registering a variable again changes nothing and returns its offset. *)
Theorem C97_registered_again : forall sh l g v, one_owner l -> In (g, v) l ->
  add_variable (add_all (fresh sh) l) g v = (add_all (fresh sh) l, offset (add_all (fresh sh) l) v).
Proof.
  intros sh l g v H Hin. assert (R := add_all_registered sh l H). unfold add_variable.
  assert (E : existsb (Nat.eqb v) (g_variables (generators (add_all (fresh sh) l) g)) = true) by (apply existsb_exists; exists v; split; [ apply (r_in _ _ _ R); exact Hin | apply Nat.eqb_refl ]).
  rewrite E. reflexivity.
Qed.
Print Assumptions C97_registered_again.
(** A variable that is registered at a second generator takes the scalars of another variable at the first one. *)
Theorem C97_shared_variables_refuted : exists sh l, let w := add_all (fresh sh) l in
  In (0%nat, 1%nat) l /\ In (0%nat, 2%nat) l /\ owns w 1 0 /\ owns w 2 0 /\ size w 1 = 2%nat /\ size w 2 = 2%nat /\ num_scalars w 0 = 4%nat.
Proof.
  exists (fun _ => [2%nat]), [(0%nat, 1%nat); (0%nat, 2%nat); (1%nat, 2%nat)]. cbn. unfold owns. cbn.
  repeat split; try lia; auto.
Qed.
Print Assumptions C97_shared_variables_refuted.
(** Every variable registered before the realization can be read at any pair of positions, and reads its own scalars. *)
Theorem C97_reading : forall sh l g d k n s r, one_owner l ->
  let w := add_all (fresh sh) l in
  realize w g d k n s = Ok r -> forall v a b, In (g, v) l ->
  length (sample r a b) = num_scalars w g /\
  exists x, fetch w v (sample r a b) = Ok x /\ length x = size w v /\
    (forall i, (i < size w v)%nat -> nth i x 0 = nth (offset w v + i) (sample r a b) 0) /\
    (forall m sd, gaussian w v (sample r a b) m sd = Ok (map (fun y => m + sd * y) x)) /\
    (forall cdf, distribution cdf -> exists u, uniform cdf w v (sample r a b) = Ok u /\ length u = size w v /\ List.Forall (fun y => 0 <= y <= 1) u) /\
    exists t, boolean w v (sample r a b) = Ok t /\ length t = size w v /\ forall i, (i < size w v)%nat -> (nth i t false = true <-> 0 < nth i x 0).
Proof.
  intros sh l g d k n s r H w Hr v a b Hv. assert (R : registered sh l w) by (apply add_all_registered; exact H). destruct (slices sh l w g R) as [A _].
  assert (L : length (sample r a b) = num_scalars w g) by (rewrite length_sample; apply (scalars_realized _ _ _ _ _ _ _ Hr)).
  split; [ exact L | ]. destruct (fetch_ok w v (sample r a b)) as [x [E [Lx Hx]]]; [ rewrite L; apply A; exact Hv | ].
  exists x. split; [ exact E | ]. split; [ exact Lx | ]. split; [ exact Hx | ]. split; [ intros m sd; unfold gaussian; apply map_fetch; exact E | ]. split.
  - intros cdf [B _]. exists (map cdf x). split; [ unfold uniform; apply map_fetch; exact E | ]. split; [ rewrite map_length; exact Lx | ].
    apply Forall_forall. intros y Hy. apply in_map_iff in Hy as [q [<- _]]. apply B.
  - exists (map (fun y => if Rlt_dec 0 y then true else false) x). split; [ unfold boolean; apply map_fetch; exact E | ]. split; [ rewrite map_length; exact Lx | ].
    intros i Hi. rewrite (nth_indep _ false (if Rlt_dec 0 0 then true else false)) by (rewrite map_length; lia).
    rewrite (map_nth (fun y => if Rlt_dec 0 y then true else false)). destruct (Rlt_dec 0 (nth i x 0)); split; intros K; try reflexivity; try assumption; try discriminate; contradiction.
Qed.
Print Assumptions C97_reading.
(** Registering more variables after a realization leaves what it says about the others unchanged; reading the new ones is refused. *)
Theorem C97_late_variables : forall sh l m g d k n s r, one_owner (l ++ m) ->
  let w := add_all (fresh sh) l in let w' := add_all w m in
  realize w g d k n s = Ok r ->
  (forall v a b, In (g, v) l -> fetch w' v (sample r a b) = fetch w v (sample r a b)) /\
  (forall v a b, In (g, v) m -> ~ In (g, v) l -> size w' v <> 0%nat -> fetch w' v (sample r a b) = Raise ValueError).
Proof.
  intros sh l m g d k n s r H w w' Hr. assert (E : w' = add_all (fresh sh) (l ++ m)) by (unfold w', w, add_all; rewrite fold_left_app; reflexivity).
  assert (Hl : one_owner l) by (intros a b c Ha Hb; apply (H a b c); apply in_or_app; left; assumption).
  assert (R : registered sh l w) by (apply add_all_registered; exact Hl). assert (R' : registered sh (l ++ m) w') by (rewrite E; apply add_all_registered; exact H).
  split.
  - intros v a b Hv. unfold fetch. destruct (kept_offset sh l m w g v H eq_refl Hv) as [A B]. fold w' in A, B. rewrite A, B. reflexivity.
  - intros v a b Hv Hn Hs. destruct (slices sh (l ++ m) w' g R') as [_ [B _]]. destruct (slices sh l w g R) as [_ [_ D]].
    assert (O : (num_scalars w g <= offset w' v)%nat).
    { destruct (le_lt_dec (num_scalars w g) (offset w' v)) as [K | K]; [ exact K | ]. exfalso. destruct (D _ K) as [u [Hu Ou]].
      assert (u <> v) by (intros ->; contradiction). destruct (kept_offset sh l m w g u H eq_refl Hu) as [P Q]. fold w' in P, Q.
      destruct (B u v) as [X | X]; [ apply in_or_app; left; exact Hu | apply in_or_app; right; exact Hv | assumption | rewrite P, Q in X; unfold owns in Ou; lia | rewrite P in X; unfold owns in Ou; lia ]. }
    unfold fetch. rewrite skipn_all2 by (rewrite length_sample, (scalars_realized _ _ _ _ _ _ _ Hr); exact O). rewrite firstn_nil. cbn [length].
    destruct (Nat.eqb_spec 0 (size w' v)); [ lia | reflexivity ].
Qed.
Print Assumptions C97_late_variables.
(** An infinite decorrelation distance makes the variables the same everywhere, namely the drawn normal numbers. *)
Theorem C97_static : forall w g k n s, exists r, realize w g Infinite k n s = Ok r /\
  forall a b, sample r a b = map n (seq 0 (num_scalars w g)).
Proof. intros w g k n s. eexists. split; reflexivity. Qed.
Print Assumptions C97_static.
(** Otherwise the variables are bounded, whatever is drawn, and move continuously with both positions. *)
Theorem C97_bounded : forall w g d k n s r, d <> 0 -> (0 < k)%nat -> realize w g (Distance d) k n s = Ok r ->
  forall i a b, Rabs (nth i (sample r a b) 0) <= sqrt (2 * INR k).
Proof.
  intros w g d k n s r Hd Hk H i a b. cbn [realize] in H. destruct (Req_EM_T d 0); [ contradiction | ]. injection H as <-. cbn [sample]. rewrite map_map.
  destruct (le_lt_dec (num_scalars w g) i) as [L | L]; [ rewrite nth_overflow by (rewrite map_length, seq_length; exact L); rewrite Rabs_R0; apply sqrt_pos | ].
  rewrite (nth_indep _ 0 ((fun x => sample_scalar k (map (fun j => let '(p, q, ph) := s x j in Sin (frequency p) (frequency q) ph) (seq 0 k)) a b) 0%nat)) by (rewrite map_length, seq_length; exact L).
  rewrite (map_nth (fun x => sample_scalar k (map (fun j => let '(p, q, ph) := s x j in Sin (frequency p) (frequency q) ph) (seq 0 k)) a b)).
  apply sample_bound; [ exact Hk | rewrite map_length, seq_length; reflexivity ].
Qed.
Print Assumptions C97_bounded.
Theorem C97_consistency : forall w g d k n s r, d <> 0 -> realize w g (Distance d) k n s = Ok r ->
  (forall i j, 0 <= radial (fst (fst (s i j))) /\ 0 <= radial (snd (fst (s i j)))) ->
  forall i a b a' b', (i < num_scalars w g)%nat ->
  Rabs (nth i (sample r a b) 0 - nth i (sample r a' b') 0) <=
  sqrt (2 / INR k) * sum (fun j => 2 * PI * (radial (fst (fst (s i j))) * norm (vsub a a') + radial (snd (fst (s i j))) * norm (vsub b b'))) (seq 0 k).
Proof.
  intros w g d k n s r Hd H Hs i a b a' b' L. cbn [realize] in H. destruct (Req_EM_T d 0); [ contradiction | ]. injection H as <-. cbn [sample]. rewrite !map_map.
  assert (N : forall a b, nth i (map (fun x => sample_scalar k (map (fun j => let '(p, q, ph) := s x j in Sin (frequency p) (frequency q) ph) (seq 0 k)) a b) (seq 0 (num_scalars w g))) 0
    = sample_scalar k (map (fun j => let '(p, q, ph) := s i j in Sin (frequency p) (frequency q) ph) (seq 0 k)) a b).
  { intros x y. set (F := fun z => sample_scalar k (map (fun j => let '(p, q, ph) := s z j in Sin (frequency p) (frequency q) ph) (seq 0 k)) x y).
    rewrite (nth_indep _ 0 (F 0%nat)) by (rewrite map_length, seq_length; exact L). rewrite (map_nth F), seq_nth by exact L. reflexivity. }
  rewrite !N. eapply Rle_trans; [ apply sample_lipschitz | ]. right. f_equal. rewrite sum_map. apply sum_ext. intros j _.
  destruct (Hs i j) as [P Q]. destruct (s i j) as [[p q] ph]. cbn [fst snd f_a f_b] in *. rewrite !frequency_norm by assumption. ring.
Qed.
Print Assumptions C97_consistency.
(** Swapping the two positions of a link gives other values. *)
Theorem C97_reciprocity_refuted : exists w g d k n s r a b, d > 0 /\ realize w g (Distance d) k n s = Ok r /\ sample r a b <> sample r b a.
Proof.
  exists (fst (add_variable (fresh (fun _ => [1%nat])) 0 0)), 0%nat, 1, 1%nat, (fun _ => 0), (fun _ _ => (Wave (/ 2) 0 0, Wave 0 0 0, 0)).
  eexists. exists (V 0 0 1), (V 0 0 0). split; [ lra | ]. split; [ cbn [realize]; destruct (Req_EM_T 1 0); [ lra | reflexivity ] | ].
  intros E. apply (f_equal (fun l => nth 0 l 0)) in E. cbn -[sqrt PI acos cos] in E. unfold sample_scalar, dot, frequency, vscale in E. cbn -[sqrt PI acos cos sin Rdiv] in E.
  rewrite Rminus_0_r, acos_1, cos_0 in E.
  rewrite !Rmult_0_l, !Rmult_0_r, !Rplus_0_r, !Rplus_0_l, !Rmult_1_r, !Rmult_1_l in E. rewrite ?Rmult_0_l, ?Rplus_0_r in E.
  replace (2 * PI * / 2) with PI in E by field. rewrite cos_PI, ?cos_0 in E.
  assert (0 < sqrt (2 / 1)) by (apply sqrt_lt_R0; lra). nra.
Qed.
Print Assumptions C97_reciprocity_refuted.
(** A decorrelation distance of zero is refused when something is realized. *)
Theorem C97_zero_distance : forall w g k n s, realize w g (Distance 0) k n s = Raise ZeroDivisionError.
Proof. intros. cbn [realize]. destruct (Req_EM_T 0 0); [ reflexivity | contradiction ]. Qed.
Print Assumptions C97_zero_distance.
(** For a positive distance the search of radial velocities ends, whatever the number of candidates: each candidate gets an interval
    that holds exactly one velocity of that probability, and the velocities grow with the candidates, from zero. *)
Theorem C97_radial_velocities : forall d n, 0 < d ->
  exists fuel l, bounds fuel 1 (1 / d) (candidates n) = Some l /\ length l = n /\
  (forall i, (i < n)%nat -> exists f, 0 <= f <= nth i l 0 /\ radial_cdf f (1 / d) (INR i / INR n) = 0 /\
     forall f', 0 <= f' -> radial_cdf f' (1 / d) (INR i / INR n) = 0 -> f' = f) /\
  (forall i j f f', (i < j)%nat -> (j < n)%nat -> 0 <= f -> 0 <= f' -> radial_cdf f (1 / d) (INR i / INR n) = 0 -> radial_cdf f' (1 / d) (INR j / INR n) = 0 -> f < f') /\
  ((0 < n)%nat -> radial_cdf 0 (1 / d) (INR 0 / INR n) = 0).
Proof.
  intros d n Hd. assert (Ha : 0 < 1 / d) by (unfold Rdiv; rewrite Rmult_1_l; apply Rinv_0_lt_compat; exact Hd). set (a := 1 / d) in *.
  assert (U : forall i, (i < n)%nat -> 0 <= INR i / INR n < 1).
  { intros i Hi. assert (P : 0 < INR n) by (apply lt_0_INR; lia). assert (Q := pos_INR i). assert (Z := lt_INR _ _ Hi). split.
    - apply Rmult_le_pos; [ exact Q | left; apply Rinv_0_lt_compat; exact P ].
    - apply (Rmult_lt_reg_r (INR n)); [ exact P | ]. unfold Rdiv. rewrite Rmult_assoc, Rinv_l by lra. lra. }
  destruct (bounds_terminate (candidates n) 1 a Ha ltac:(lra)) as [fuel [l [E F]]].
  { intros u Hu. apply in_map_iff in Hu as [i [<- Hi]]. apply in_seq in Hi. apply U. lia. }
  assert (L : length l = n) by (assert (X := Forall2_len _ _ _ F); unfold candidates in X; rewrite map_length, seq_length in X; lia).
  exists fuel, l. split; [ exact E | ]. split; [ exact L | ].
  assert (Inj : forall u f f', 0 <= f -> 0 <= f' -> radial_cdf f a u = 0 -> radial_cdf f' a u = 0 -> f' = f).
  { intros u f f' Hf Hf' Z Z'. destruct (Rtotal_order f' f) as [K | [K | K]]; [ | exact K | ].
    - assert (X := cdf_increasing a u f' f Ha Hf' K). lra.
    - assert (X := cdf_increasing a u f f' Ha Hf K). lra. }
  split; [ | split ].
  - intros i Hi.
    assert (K : 0 < nth i l 0 /\ 0 <= radial_cdf (nth i l 0) a (INR i / INR n)).
    { assert (G : forall us bs, Forall2 (fun u b => 0 < b /\ 0 <= radial_cdf b a u) us bs -> forall i, (i < length us)%nat -> 0 < nth i bs 0 /\ 0 <= radial_cdf (nth i bs 0) a (nth i us 0)).
      { induction 1 as [ | u b us bs Hb Hr IH]; intros j Hj; [ cbn in Hj; lia | ]. destruct j; [ exact Hb | ]. cbn [nth]. apply IH. cbn in Hj. lia. }
      specialize (G _ _ F i). unfold candidates in G. rewrite map_length, seq_length in G. specialize (G Hi).
      assert (Z : nth i (map (fun i => INR i / INR n) (seq 0 n)) 0 = INR i / INR n) by (rewrite (nth_indep (map (fun i => INR i / INR n) (seq 0 n)) 0 (INR 0 / INR n)) by (rewrite map_length, seq_length; exact Hi); rewrite (map_nth (fun i => INR i / INR n)), seq_nth by exact Hi; reflexivity).
      rewrite Z in G. exact G. }
    destruct (cdf_root a (INR i / INR n) (nth i l 0) Ha) as [f [Hf Z]]; [ apply U; exact Hi | lra | lra | ].
    exists f. split; [ exact Hf | ]. split; [ exact Z | ]. intros f' Hf' Z'. apply (Inj (INR i / INR n)); [ lra | exact Hf' | exact Z | exact Z' ].
  - intros i j f f' Hij Hj Hf Hf' Z Z'. destruct (Rlt_le_dec f f') as [K | K]; [ exact K | exfalso ].
    assert (X := cdf_weakly_increasing a (INR i / INR n) f' f Ha K). assert (INR i / INR n < INR j / INR n).
    { apply Rmult_lt_compat_r; [ apply Rinv_0_lt_compat; apply lt_0_INR; lia | apply lt_INR; exact Hij ]. }
    unfold radial_cdf in *. lra.
  - intros Hn. rewrite cdf_zero by exact Ha. unfold Rdiv. cbn [INR]. ring.
Qed.
Print Assumptions C97_radial_velocities.
(** For a negative distance the search never ends, however many rounds it is given. *)
Theorem C97_negative_distance : forall d n fuel, d < 0 -> (0 < n)%nat -> bounds fuel 1 (1 / d) (candidates n) = None.
Proof.
  intros d n fuel Hd Hn. destruct n as [ | n]; [ lia | ]. unfold candidates. cbn [seq map bounds]. rewrite expand_forever; [ reflexivity | | | lra ].
  - unfold Rdiv. rewrite Rmult_1_l. apply Rinv_lt_0_compat. exact Hd.
  - cbn [INR]. unfold Rdiv. rewrite Rmult_0_l. lra.
Qed.
Print Assumptions C97_negative_distance.

(** Two generators, three variables, one registered twice, realized with two sinusoids per scalar *)
Example C97_met :
  let sh := fun v => match v with O => [2%nat; 2%nat] | S O => [1%nat] | _ => [3%nat] end in
  let l := [(0%nat, 0%nat); (1%nat, 1%nat); (0%nat, 2%nat); (0%nat, 0%nat)] in
  let w := add_all (fresh sh) l in
  one_owner l /\ num_scalars w 0 = 7%nat /\ num_scalars w 1 = 1%nat /\ offset w 2 = 4%nat /\
  (exists r, realize w 0 (Distance 30) 2 (fun _ => 0) (fun i j => (Wave 1 0 1, Wave 2 0 1, INR i)) = Ok r) /\
  distribution (fun s => 1 / 2 + atan s / PI).
Proof.
  cbv zeta. split; [ | split; [ reflexivity | split; [ reflexivity | split; [ reflexivity | split ] ] ] ].
  - intros g h v Ha Hb. cbn in Ha, Hb. intuition congruence.
  - cbn [realize]. destruct (Req_EM_T 30 0); [ lra | eexists; reflexivity ].
  - assert (Hp := PI_RGT_0). split.
    + intros s. destruct (atan_bound s) as [A B]. assert (Q : 0 < / PI) by (apply Rinv_0_lt_compat; exact Hp).
      assert (C1 : - PI / 2 * / PI <= atan s * / PI) by (apply Rmult_le_compat_r; lra). assert (C2 : atan s * / PI <= PI / 2 * / PI) by (apply Rmult_le_compat_r; lra).
      replace (- PI / 2 * / PI) with (- / 2) in C1 by (field; lra). replace (PI / 2 * / PI) with (/ 2) in C2 by (field; lra). unfold Rdiv. lra.
    + intros s t H. apply Rplus_le_compat_l. apply Rmult_le_compat_r; [ left; apply Rinv_0_lt_compat; exact Hp | ].
      destruct (Rle_lt_or_eq_dec _ _ H) as [L | <-]; [ left; apply atan_increasing; exact L | right; reflexivity ].
Qed.
