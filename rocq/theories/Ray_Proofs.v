(** Proofs about the propagation over cluster delay lines. *)
From Coq Require Import List Reals ZArith Bool Arith Lia Lra Permutation.
From Coquelicot Require Import Complex.
From Verif Require Import Base BaseLemmas Cplx Cplx_Proofs Log_Model Rot_Model Ant_Model Chan_Model Chan_Spec Chan_Proofs Ray_Model Ray_Spec.
Import ListNotations.
Open Scope R_scope.

(** ** Rounding *)
Lemma int_ceil : forall a b, 0 <= a -> a <= b -> (int_of a <= ceil_of b)%nat.
Proof.
  intros a b Ha Hab. unfold int_of, ceil_of. apply Z2Nat.inj_le.
  - pose proof (floor_spec a). apply Z.lt_succ_r, lt_IZR. unfold Z.succ. rewrite plus_IZR. lra.
  - pose proof (floor_spec (- b)) as [Hb _]. apply le_IZR. rewrite opp_IZR. lra.
  - pose proof (floor_spec a) as [Ha' _]. pose proof (floor_spec (- b)) as [Hb _]. apply le_IZR. rewrite opp_IZR. lra.
Qed.

(** ** Maxima *)
Lemma fold_rmax : forall l x, x <= fold_left Rmax l x /\ forall y, In y l -> y <= fold_left Rmax l x.
Proof.
  induction l as [|a l IH]; intros x; cbn [fold_left]; [split; [lra|intros y []]|].
  destruct (IH (Rmax x a)) as [H1 H2]. split; [eapply Rle_trans; [apply Rmax_l|exact H1]|].
  intros y [->|Hy]; [eapply Rle_trans; [apply Rmax_r|exact H1]|exact (H2 y Hy)].
Qed.
Lemma list_max_ge : forall l y, In y l -> y <= Ray_Model.list_max l.
Proof. intros [|a l] y Hy; [destruct Hy|]. unfold Ray_Model.list_max. destruct (fold_rmax l a) as [H1 H2]. destruct Hy as [<-|Hy]; [exact H1|exact (H2 y Hy)]. Qed.

Lemma max_delay_ge : forall s k, In k (clusters s) -> c_delay k + delay_offset s <= max_delay s.
Proof.
  intros s k Hk. unfold max_delay. apply Rplus_le_compat_r. eapply Rle_trans; [|apply Rmax_r]. apply list_max_ge, in_map, Hk.
Qed.
Lemma max_delay_split : forall s k, 0 <= delay_spread s -> In k (firstn 2 (clusters s)) -> c_delay k + delay_spread s * (256 / 100) + delay_offset s <= max_delay s.
Proof.
  intros s k Hs Hk. unfold max_delay. apply Rplus_le_compat_r. eapply Rle_trans; [|apply Rmax_l]. apply list_max_ge.
  apply in_map_iff. exists (c_delay k). split; [reflexivity|]. rewrite firstn_map. apply in_map.
  destruct (clusters s) as [|a [|b l]]; cbn [firstn] in *; cbn [In] in *; tauto.
Qed.

(** ** The order of the rays *)
Definition blank : cluster := mkCluster 0 0 [].
Definition dull : ray := mkRay 0 0 0 0 ((RtoC 0, RtoC 0), (RtoC 0, RtoC 0)).
Definition seen (s : sample) (e : ends) (v : nat * nat * R) : path :=
  let '(c, r, d) := v in ray_path s e (nth c (clusters s) blank) (nth r (c_rays (nth c (clusters s) blank)) dull) d.

Lemma cluster_of_late : forall i, cluster_of (6 + i) = (2 + i)%nat.
Proof. intros i. unfold cluster_of. replace (Nat.ltb (6 + i) 6) with false by (symmetry; apply Nat.ltb_ge; lia). lia. Qed.

Lemma flat_map_seq_shift : forall {B} (f : nat -> list B) a n, flat_map f (seq a n) = flat_map (fun i => f (a + i)%nat) (seq 0 n).
Proof.
  intros B f a n. revert a. induction n as [|n IH]; intros a; [reflexivity|]. cbn [seq flat_map]. rewrite Nat.add_0_r. f_equal.
  rewrite (IH (S a)). rewrite <- seq_shift, flat_map_concat_map, flat_map_concat_map, map_map. f_equal. apply map_ext. intros i. f_equal. lia.
Qed.

Definition thrice (s : sample) (c : nat) (k : cluster) (p : list nat) : list (nat * nat * R) :=
  flat_map (fun f => map (fun r => (c, r, c_delay k + delay_spread s * f)) p) [0; 128 / 100; 256 / 100].
Definition later (s : sample) (l : list cluster) : list (nat * nat * R) :=
  flat_map (fun i => map (fun r => ((2 + i)%nat, r, nth i (map c_delay l) 0)) (seq 0 (num_rays s))) (seq 0 (length l)).
Lemma visits_one : forall s k, clusters s = [k] -> visits s = thrice s 0 k (nth 0 subcluster_indices []).
Proof. intros s k E. unfold visits, virtual_clusters, virtual_delays, rays_of, num_split, thrice. rewrite E. reflexivity. Qed.
Lemma visits_more : forall s k0 k1 l, clusters s = k0 :: k1 :: l ->
  visits s = thrice s 0 k0 (nth 0 subcluster_indices []) ++ thrice s 1 k1 (nth 1 subcluster_indices []) ++ later s l.
Proof.
  intros s k0 k1 l E. unfold visits. replace (virtual_clusters s) with (6 + length l)%nat by (unfold virtual_clusters, num_split; rewrite E; cbn [length]; lia).
  assert (Ns : num_split s = 2%nat) by (unfold num_split; rewrite E; reflexivity).
  rewrite seq_app, flat_map_app, Nat.add_0_l, (flat_map_seq_shift _ 6). rewrite app_assoc. f_equal.
  - unfold virtual_delays. rewrite Ns, E. unfold rays_of. rewrite Ns. reflexivity.
  - unfold later. rewrite !flat_map_concat_map. f_equal. apply map_ext_in. intros i Hi. rewrite cluster_of_late. unfold rays_of. rewrite Ns. cbn [Nat.ltb Nat.leb Nat.add].
    apply map_ext. intros r. f_equal. unfold virtual_delays. rewrite Ns, E. cbn [firstn skipn flat_map map app nth]. reflexivity.
Qed.

Lemma total_thrice : forall F s c k p, total F (thrice s c k p) = total (fun r => total (fun d => F (c, r, d)) (map (fun q => c_delay k + delay_spread s * step q) [0; 1; 2]%nat)) p.
Proof.
  intros F s c k p. unfold thrice. cbn [flat_map map step]. rewrite app_nil_r, !total_app, !total_map.
  set (d0 := c_delay k + delay_spread s * 0). set (d1 := c_delay k + delay_spread s * (128 / 100)). set (d2 := c_delay k + delay_spread s * (256 / 100)).
  rewrite (total_ext (fun r => total _ _) (fun r => (F (c, r, d0) + (F (c, r, d1) + F (c, r, d2)))%C)).
  - rewrite !total_plus. reflexivity.
  - intros r _. cbn [total]. ring.
Qed.

Lemma total_member : forall (g : nat -> C) p n, NoDup p -> (forall r, In r p -> (r < n)%nat) ->
  total (fun r => if existsb (Nat.eqb r) p then g r else RtoC 0) (seq 0 n) = total g p.
Proof.
  intros g p n Hd. induction Hd as [|a p Ha Hd IH]; intros Hb.
  - cbn [existsb total]. apply total_0.
  - cbn [total]. rewrite <- IH by (intros r Hr; apply Hb; right; exact Hr).
    rewrite (total_ext _ (fun r => ((if Nat.eqb r a then g r else RtoC 0) + (if existsb (Nat.eqb r) p then g r else RtoC 0))%C)).
    + rewrite total_plus, total_delta. replace (Nat.ltb a n) with true by (symmetry; apply Nat.ltb_lt, Hb; left; reflexivity). reflexivity.
    + intros r _. cbn [existsb]. destruct (Nat.eqb_spec r a) as [->|Hr]; cbn [orb].
      * replace (existsb (Nat.eqb a) p) with false; [ring|]. symmetry. apply not_true_is_false. intros H. apply existsb_exists in H. destruct H as [q [Hq Eq]]. apply Nat.eqb_eq in Eq. subst q. contradiction.
      * ring.
Qed.

Lemma part_first : forall r, (Nat.ltb r 20 && Nat.eqb (part r) 0)%bool = existsb (Nat.eqb r) (nth 0 subcluster_indices []).
Proof. intros r. do 20 (destruct r as [|r]; [reflexivity|]). reflexivity. Qed.
Lemma part_second : forall r, (Nat.ltb r 20 && Nat.eqb (part r) 1)%bool = existsb (Nat.eqb r) (nth 1 subcluster_indices []).
Proof. intros r. do 20 (destruct r as [|r]; [reflexivity|]). reflexivity. Qed.
Lemma nodup_first : NoDup (nth 0 subcluster_indices []) /\ NoDup (nth 1 subcluster_indices []).
Proof. cbn. split; repeat (constructor; [cbn; intuition discriminate|]); constructor. Qed.
Lemma part_bound : forall c r, In r (nth c subcluster_indices []) -> (r < 20)%nat.
Proof. intros [|[|[|c]]] r H; cbn in H; intuition (try subst; try lia). destruct c; contradiction. Qed.

Lemma total_number : forall {A} (F : nat * A -> C) (l : list A) (z : A) i, total F (number i l) = total (fun j => F ((i + j)%nat, nth j l z)) (seq 0 (length l)).
Proof.
  intros A F l z. induction l as [|a l IH]; intros i; [reflexivity|]. cbn [number total length seq]. rewrite Nat.add_0_r. cbn [nth]. f_equal.
  rewrite (IH (S i)), <- seq_shift, total_map. apply total_ext. intros j _. cbn [nth]. f_equal. f_equal. lia.
Qed.

(** ** Sums over all rays *)
Definition ray_sum (s : sample) (G : nat * cluster -> nat * ray -> R -> C) : C :=
  total (fun k => total (fun y => total (G k y) (arrivals s (fst k) (fst y) (snd k))) (number 0 (c_rays (snd k)))) (number 0 (clusters s)).
Definition by_indices (s : sample) (G : nat * cluster -> nat * ray -> R -> C) (v : nat * nat * R) : C :=
  let '(c, r, d) := v in G (c, nth c (clusters s) blank) (r, nth r (c_rays (nth c (clusters s) blank)) dull) d.

Lemma one_cluster : forall s G c k, (c < 2)%nat -> nth c (clusters s) blank = k -> (20 <= length (c_rays k))%nat ->
  total (fun y => total (G (c, k) y) (arrivals s c (fst y) k)) (number 0 (c_rays k)) = total (by_indices s G) (thrice s c k (nth c subcluster_indices [])).
Proof.
  intros s G c k Hc Ek Hl. rewrite total_thrice, (total_number _ _ dull). cbn [fst snd Nat.add].
  etransitivity; [|apply (total_member _ _ (length (c_rays k)))].
  - apply total_ext. intros r _. unfold arrivals. replace (Nat.ltb c 2) with true by (symmetry; apply Nat.ltb_lt; exact Hc).
    assert (Em : (Nat.ltb r 20 && Nat.eqb (part r) c)%bool = existsb (Nat.eqb r) (nth c subcluster_indices [])).
    { destruct c as [|[|c]]; [apply part_first|apply part_second|lia]. }
    rewrite Em. destruct (existsb _ _); [|reflexivity]. apply total_ext. intros d _. unfold by_indices. rewrite Ek. reflexivity.
  - destruct c as [|[|c]]; [apply nodup_first|apply nodup_first|lia].
  - intros r Hr. apply part_bound in Hr. lia.
Qed.

Lemma visits_sum : forall s e G, valid s e -> total (by_indices s G) (visits s) = ray_sum s G.
Proof.
  intros s e G [Hne [Hn [_ [_ [_ Hk]]]]]. unfold ray_sum. destruct (clusters s) as [|k0 [|k1 l]] eqn:E; [contradiction| |].
  - rewrite (visits_one s k0 E). cbn [number total]. rewrite Cplus_0_r. symmetry. apply one_cluster; [lia|rewrite E; reflexivity|].
    destruct (Hk k0 (or_introl eq_refl)) as [-> _]. exact Hn.
  - rewrite (visits_more s k0 k1 l E), !total_app. cbn [number total]. f_equal; [|f_equal].
    + symmetry. apply one_cluster; [lia|rewrite E; reflexivity|]. destruct (Hk k0 (or_introl eq_refl)) as [-> _]. exact Hn.
    + symmetry. apply one_cluster; [lia|rewrite E; reflexivity|]. destruct (Hk k1 (or_intror (or_introl eq_refl))) as [-> _]. exact Hn.
    + rewrite (total_number _ l blank). unfold later. rewrite total_flat_map. apply total_ext. intros i Hi. apply in_seq in Hi.
      rewrite total_map, (total_number _ _ dull). cbn [fst snd].
      assert (Hin : In (nth i l blank) (k0 :: k1 :: l)) by (right; right; apply nth_In; lia).
      destruct (Hk _ Hin) as [-> _]. apply total_ext. intros r _. unfold by_indices. rewrite E. cbn [Nat.add nth arrivals].
      unfold arrivals. cbn [Nat.ltb Nat.leb total]. rewrite Cplus_0_r. f_equal.
      rewrite (nth_indep _ 0 (c_delay blank)) by (rewrite map_length; lia). apply map_nth.
Qed.

(** ** The paths *)
Lemma mapM_map : forall {A B} (f : A -> result B) g l, (forall a, In a l -> f a = Ok (g a)) -> mapM f l = Ok (map g l).
Proof.
  intros A B f g l. induction l as [|a l IH]; intros H; [reflexivity|]. cbn [mapM map]. rewrite (H a (or_introl eq_refl)). cbn [bind].
  rewrite IH by (intros b Hb; apply H; right; exact Hb). reflexivity.
Qed.
Lemma in_thrice : forall s c k p v, In v (thrice s c k p) -> exists r q, v = (c, r, c_delay k + delay_spread s * q) /\ In r p /\ 0 <= q <= 256 / 100.
Proof.
  intros s c k p v H. unfold thrice in H. apply in_flat_map in H. destruct H as [f [Hf H]]. apply in_map_iff in H. destruct H as [r [<- Hr]].
  exists r, f. split; [reflexivity|]. split; [exact Hr|]. destruct Hf as [<-|[<-|[<-|[]]]]; lra.
Qed.
Lemma in_later : forall s l v, In v (later s l) -> exists i r, v = ((2 + i)%nat, r, c_delay (nth i l blank)) /\ (i < length l)%nat /\ (r < num_rays s)%nat.
Proof.
  intros s l v H. unfold later in H. apply in_flat_map in H. destruct H as [i [Hi H]]. apply in_map_iff in H. destruct H as [r [<- Hr]].
  apply in_seq in Hi. apply in_seq in Hr. exists i, r. split; [|lia]. f_equal. rewrite (nth_indep _ 0 (c_delay blank)) by (rewrite map_length; lia). apply map_nth.
Qed.
(** Every visit is of an existing ray, and not late *)
Lemma visit_ok : forall s e v, valid s e -> In v (visits s) ->
  let '(c, r, d) := v in (c < length (clusters s))%nat /\ (r < length (c_rays (nth c (clusters s) blank)))%nat /\ 0 <= d /\ d + delay_offset s <= max_delay s.
Proof.
  intros s e v [Hne [Hn [Hs [Ho [_ Hk]]]]] Hv. destruct (clusters s) as [|k0 [|k1 l]] eqn:E; [contradiction| |].
  - rewrite (visits_one s k0 E) in Hv. apply in_thrice in Hv. destruct Hv as [r [q [-> [Hr Hq]]]]. cbn [nth length].
    destruct (Hk k0 (or_introl eq_refl)) as [Hl Hd]. apply part_bound in Hr. split; [lia|]. split; [lia|]. split; [pose proof (Rmult_le_pos _ _ Hs (proj1 Hq)); lra|].
    eapply Rle_trans; [|apply (max_delay_split s k0 Hs); rewrite E; left; reflexivity]. pose proof (Rmult_le_compat_l _ _ _ Hs (proj2 Hq)). lra.
  - rewrite (visits_more s k0 k1 l E) in Hv. apply in_app_or in Hv. destruct Hv as [Hv|Hv]; [|apply in_app_or in Hv; destruct Hv as [Hv|Hv]].
    + apply in_thrice in Hv. destruct Hv as [r [q [-> [Hr Hq]]]]. cbn [nth length].
      destruct (Hk k0 (or_introl eq_refl)) as [Hl Hd]. apply part_bound in Hr. split; [lia|]. split; [lia|]. split; [pose proof (Rmult_le_pos _ _ Hs (proj1 Hq)); lra|].
      eapply Rle_trans; [|apply (max_delay_split s k0 Hs); rewrite E; left; reflexivity]. pose proof (Rmult_le_compat_l _ _ _ Hs (proj2 Hq)). lra.
    + apply in_thrice in Hv. destruct Hv as [r [q [-> [Hr Hq]]]]. cbn [nth length].
      destruct (Hk k1 (or_intror (or_introl eq_refl))) as [Hl Hd]. apply part_bound in Hr. split; [lia|]. split; [lia|]. split; [pose proof (Rmult_le_pos _ _ Hs (proj1 Hq)); lra|].
      eapply Rle_trans; [|apply (max_delay_split s k1 Hs); rewrite E; right; left; reflexivity]. pose proof (Rmult_le_compat_l _ _ _ Hs (proj2 Hq)). lra.
    + apply in_later in Hv. destruct Hv as [i [r [-> [Hi Hr]]]]. cbn [nth length Nat.add].
      assert (Hin : In (nth i l blank) (k0 :: k1 :: l)) by (right; right; apply nth_In; lia).
      destruct (Hk _ Hin) as [Hl Hd]. split; [lia|]. split; [lia|]. split; [exact Hd|]. apply max_delay_ge. rewrite E. exact Hin.
Qed.
Lemma paths_ok : forall s e, valid s e -> paths s e = Ok (map (seen s e) (visits s) ++ if line_of_sight s then [los_path s e] else []).
Proof.
  intros s e Hv. unfold paths. rewrite (mapM_map _ (seen s e)); [reflexivity|]. intros [[c r] d] Hin.
  pose proof (visit_ok s e _ Hv Hin) as K. cbn beta iota in K. destruct K as [Hc [Hr _]]. unfold visit_path, seen.
  rewrite (nth_error_nth' (clusters s) blank Hc), (nth_error_nth' _ dull Hr). reflexivity.
Qed.
Lemma path_in_time : forall s e l p, valid s e -> paths s e = Ok l -> In p l -> (samples_of s e p <= ceil_of (max_delay s * bandwidth e))%nat.
Proof.
  intros s e l p Hv El Hp. rewrite (paths_ok s e Hv) in El. injection El as <-. pose proof Hv as [Hne [Hn [Hs [Ho [Hb Hk]]]]].
  assert (K : 0 <= p_delay p /\ p_delay p + delay_offset s <= max_delay s).
  { apply in_app_or in Hp. destruct Hp as [Hp|Hp].
    - apply in_map_iff in Hp. destruct Hp as [[[c r] d] [<- Hin]]. pose proof (visit_ok s e _ Hv Hin) as K. cbn beta iota in K. cbn [seen ray_path p_delay]. tauto.
    - destruct (line_of_sight s); [|destruct Hp]. destruct Hp as [<-|[]]. cbn [los_path p_delay]. destruct (clusters s) as [|k l] eqn:E; [contradiction|].
      split; [apply Hk; left; reflexivity|]. apply max_delay_ge. rewrite E. left. reflexivity. }
  unfold samples_of. apply int_ceil; [apply Rmult_le_pos; lra|]. apply Rmult_le_compat_r; lra.
Qed.

(** The copies in the order of the clusters and the paths in the order of the code have the same sums *)
Lemma copies_total : forall s e l (F : tap -> C), valid s e -> paths s e = Ok l -> total F (copies arrivals s e) = total (fun p => F (copy s e p)) l.
Proof.
  intros s e l F Hv El. rewrite (paths_ok s e Hv) in El. injection El as <-. unfold copies. rewrite !total_app. f_equal.
  - rewrite total_map. transitivity (ray_sum s (fun k y d => F (copy s e (ray_path s e (snd k) (snd y) d)))).
    + unfold ray_sum. rewrite total_flat_map. apply total_ext. intros k _. rewrite total_flat_map. apply total_ext. intros y _. apply total_map.
    + rewrite <- (visits_sum s e _ Hv). apply total_ext. intros [[c r] d] _. reflexivity.
  - destruct (line_of_sight s); reflexivity.
Qed.

(** ** Propagation *)
Lemma fold_windows : forall {P} (from : P -> nat) (n len : nat) (val : P -> nat -> nat -> C) (st : result (nat -> nat -> C) -> P -> result (nat -> nat -> C)) l a0,
  (forall a p, In p l -> exists b, st (Ok a) p = Ok b /\ forall r j, b r j = (a r j + (if (Nat.leb (from p) j && Nat.ltb j (from p + n))%bool then val p r (j - from p)%nat else RtoC 0))%C) ->
  exists y, fold_left st l (Ok a0) = Ok y /\ forall r j, y r j = (a0 r j + total (fun p => if (Nat.leb (from p) j && Nat.ltb j (from p + n))%bool then val p r (j - from p)%nat else RtoC 0) l)%C.
Proof.
  intros P from n len val st l. induction l as [|p l IH]; intros a0 H.
  - exists a0. split; [reflexivity|]. intros r j. cbn [total]. ring.
  - destruct (H a0 p (or_introl eq_refl)) as [b [Eb Hb]]. destruct (IH b) as [y [Ey Hy]]; [intros a q Hq; apply H; right; exact Hq|].
    exists y. cbn [fold_left]. rewrite Eb. split; [exact Ey|]. intros r j. rewrite Hy, Hb. cbn [total]. ring.
Qed.
Lemma propagate_received : forall s e b, valid s e -> streams b = n_tx e ->
  exists y, propagate s e NEAREST b = Ok y /\ streams y = n_rx e /\ samples y = (samples b + ceil_of (max_delay s * bandwidth e))%nat /\ offset y = offset b /\
  forall r j, x y r j = received (copies arrivals s e) b r j.
Proof.
  intros s e b Hv Hb. pose proof (paths_ok s e Hv) as El. set (l := (_ ++ _)%list) in El. clearbody l. unfold propagate. rewrite Hb, Nat.eqb_refl, El. cbn [negb bind].
  match goal with |- context [fold_left ?st l ?a] => set (stp := st) end.
  destruct (fold_windows (samples_of s e) (samples b) 0 (fun p r i => csum (fun t => channel p r t * x b t i * impulse p i)%C (n_tx e)) stp l (fun _ _ => RtoC 0)) as [y [Ey Hy]].
  - intros a p Hp. unfold stp. cbn [bind]. pose proof (path_in_time s e l p Hv El Hp) as Hd.
    replace (Nat.leb (samples_of s e p + samples b) (samples b + ceil_of (max_delay s * bandwidth e))) with true by (symmetry; apply Nat.leb_le; lia).
    eexists. split; [reflexivity|]. intros r j. cbn beta. destruct (_ && _)%bool; ring.
  - rewrite Ey. cbn [bind]. eexists. split; [reflexivity|]. split; [reflexivity|]. split; [reflexivity|]. split; [reflexivity|]. intros r j. cbn [x]. rewrite Hy.
    unfold received. rewrite (copies_total s e l _ Hv El), Cplus_0_l. apply total_ext. intros p _. cbn [copy td weight]. fold (samples_of s e p). rewrite Hb.
    destruct (_ && _)%bool; [|symmetry; apply csum_0]. apply csum_ext. intros t _. ring.
Qed.

(** ** Channel state *)
Lemma state_ok : forall s e n m l, valid s e -> paths s e = Ok l ->
  exists g, state s e n m = Ok (impulse_csi (n_rx e) (n_tx e) n (1 + Nat.min m (ceil_of (max_delay s * bandwidth e))) g) /\
  forall r t i k, g r t i k = total (fun p => if (Nat.eqb k (samples_of s e p) && Nat.ltb (samples_of s e p) m)%bool then (channel p r t * impulse p i)%C else RtoC 0) l.
Proof.
  intros s e n m l Hv El. unfold state. rewrite El. cbn [bind].
  assert (Hd : forall p, In p l -> (samples_of s e p <= ceil_of (max_delay s * bandwidth e))%nat) by (intros p Hp; exact (path_in_time s e l p Hv El Hp)).
  set (top := Nat.min m _). match goal with |- context [fold_left ?st l ?a] => set (stp := st) end.
  assert (K : forall l a, (forall p, In p l -> (samples_of s e p <= ceil_of (max_delay s * bandwidth e))%nat) -> exists g, fold_left stp l (Ok a) = Ok g /\
    forall r t i k, g r t i k = (a r t i k + total (fun p => if (Nat.eqb k (samples_of s e p) && Nat.ltb (samples_of s e p) m)%bool then (channel p r t * impulse p i)%C else RtoC 0) l)%C).
  { clear l El Hd. induction l as [|p l IH]; intros a Hd.
    - exists a. split; [reflexivity|]. intros. cbn [total]. ring.
    - cbn [fold_left]. pose proof (Hd p (or_introl eq_refl)) as Hp. set (d := samples_of s e p) in *.
      assert (Eb : exists b, stp (Ok a) p = Ok b /\ forall r t i k, b r t i k = (a r t i k + (if (Nat.eqb k d && Nat.ltb d m)%bool then (channel p r t * impulse p i)%C else RtoC 0))%C).
      { unfold stp. cbn [bind]. fold d. destruct (Nat.leb_spec m d) as [Hm|Hm].
        - exists a. split; [reflexivity|]. intros. replace (Nat.ltb d m) with false by (symmetry; apply Nat.ltb_ge; exact Hm). rewrite andb_false_r. ring.
        - replace (Nat.ltb top d) with false by (symmetry; apply Nat.ltb_ge; unfold top; lia). eexists. split; [reflexivity|]. intros r t i k. cbn beta.
          replace (Nat.ltb d m) with true by (symmetry; apply Nat.ltb_lt; exact Hm). rewrite andb_true_r. destruct (Nat.eqb k d); ring. }
      destruct Eb as [b [Eb Hb]]. rewrite Eb. destruct (IH b) as [g [Eg Hg]]; [intros q Hq; apply Hd; right; exact Hq|]. exists g. split; [exact Eg|].
      intros r t i k. rewrite Hg, Hb. cbn [total]. fold d. ring. }
  destruct (K l (fun _ _ _ _ => RtoC 0) Hd) as [g [Eg Hg]]. rewrite Eg. cbn [bind]. exists g. split; [reflexivity|]. intros. rewrite Hg. ring.
Qed.

Lemma total_filter : forall {A} (F : A -> C) q l, total F (filter q l) = total (fun a => if q a then F a else RtoC 0) l.
Proof. intros A F q l. induction l as [|a l IH]; [reflexivity|]. cbn [filter total]. destruct (q a); cbn [total]; rewrite IH; ring. Qed.
Lemma total_swap : forall {A B} (F : A -> B -> C) l m, total (fun a => total (F a) m) l = total (fun b => total (fun a => F a b) l) m.
Proof.
  intros A B F l m. induction l as [|a l IH]; cbn [total]; [symmetry; apply total_0|]. rewrite IH, <- total_plus. reflexivity.
Qed.
Lemma csum_cut : forall (q : bool) f n, csum (fun t => if q then f t else RtoC 0) n = if q then csum f n else RtoC 0.
Proof. intros [] f n; [reflexivity|apply csum_0]. Qed.
Lemma total_cut : forall {A} (q : bool) (f : A -> C) l, total (fun t => if q then f t else RtoC 0) l = if q then total f l else RtoC 0.
Proof. intros A [] f l; [reflexivity|apply total_0]. Qed.

Lemma state_applied : forall s e n m l b c, valid s e -> paths s e = Ok l -> state s e n m = Ok c -> streams b = n_tx e -> (samples b <= n)%nat ->
  exists y, csi_propagate c b = Ok y /\ streams y = n_rx e /\ samples y = (samples b + Nat.min m (ceil_of (max_delay s * bandwidth e)))%nat /\
  forall r j, (r < n_rx e)%nat -> x y r j = received (filter (fun p => Nat.ltb (td p) m) (copies arrivals s e)) b r j.
Proof.
  intros s e n m l b c Hv El Ec Hb Hn. destruct (state_ok s e n m l Hv El) as [g [Eg Hg]]. rewrite Ec in Eg. injection Eg as ->.
  set (T := Nat.min m (ceil_of (max_delay s * bandwidth e))) in *.
  destruct (csi_propagate_received (impulse_csi (n_rx e) (n_tx e) n (1 + T) g) b eq_refl ltac:(cbn; lia) Hb Hn) as [y [Ey [Sy [Ny Xy]]]].
  exists y. split; [exact Ey|]. split; [exact Sy|]. split; [rewrite Ny; cbn [impulse_csi ntaps]; lia|]. intros r j Hr. rewrite Xy by exact Hr.
  unfold received. rewrite total_filter. rewrite (copies_total s e l _ Hv El). unfold csi_taps. rewrite total_map. cbn [td weight impulse_csi ntaps h copy].
  transitivity (total (fun d => total (fun p => if Nat.eqb d (samples_of s e p) then
     (if Nat.ltb (samples_of s e p) m then csum (fun t => if (Nat.leb (samples_of s e p) j && Nat.ltb j (samples_of s e p + samples b))%bool
       then (channel p r t * impulse p (j - samples_of s e p)%nat * x b t (j - samples_of s e p)%nat)%C else RtoC 0) (streams b) else RtoC 0) else RtoC 0) l) (seq 0 (1 + T))).
  - apply total_ext. intros d _. rewrite csum_cut.
    rewrite (csum_ext _ (fun t => total (fun p => if (Nat.eqb d (samples_of s e p) && Nat.ltb (samples_of s e p) m)%bool then (channel p r t * impulse p (j - d)%nat * x b t (j - d)%nat)%C else RtoC 0) l)).
    + rewrite <- total_csum, <- total_cut. apply total_ext. intros p _. destruct (Nat.eqb_spec d (samples_of s e p)) as [->|Hd]; cbn [andb].
      * destruct (Nat.ltb _ m); rewrite ?csum_cut; [reflexivity|]. rewrite csum_0. destruct (_ && _)%bool; reflexivity.
      * rewrite csum_0. destruct (_ && _)%bool; reflexivity.
    + intros t _. rewrite Hg, Cmult_comm, <- total_scal. apply total_ext. intros p _. destruct (_ && _)%bool; ring.
  - rewrite total_swap. apply total_ext. intros p Hp. fold (samples_of s e p).
    match goal with |- total (fun d => if Nat.eqb d ?k then ?v else _) _ = _ => etransitivity; [exact (total_delta (fun _ => v) (1 + T) k)|] end. cbn beta.
    pose proof (path_in_time s e l p Hv El Hp) as Hd. destruct (Nat.ltb_spec (samples_of s e p) m) as [Hm|Hm].
    + replace (Nat.ltb (samples_of s e p) (1 + T)) with true by (symmetry; apply Nat.ltb_lt; unfold T; lia). reflexivity.
    + destruct (Nat.ltb _ _); reflexivity.
Qed.

(** ** Energies *)
Lemma real_total_C : forall {A} (f : A -> R) l, RtoC (real_total f l) = total (fun a => RtoC (f a)) l.
Proof. intros A f l. induction l as [|a l IH]; [reflexivity|]. cbn [real_total fold_right total]. fold (real_total f l). rewrite RtoC_plus, IH. reflexivity. Qed.
Lemma total_const : forall {A} (z : C) (l : list A), total (fun _ => z) l = (RtoC (INR (length l)) * z)%C.
Proof.
  intros A z l. induction l as [|a l IH]; [cbn [total length INR]; ring|]. cbn [total length]. rewrite S_INR, RtoC_plus, IH. ring.
Qed.
Lemma cis_mod : forall a, Cmod (cis a) = 1.
Proof. intros a. unfold cis, Cmod. cbn [fst snd]. rewrite <- (sqrt_1) at 1. f_equal. pose proof (sin2_cos2 a) as H. unfold Rsqr in H. nra. Qed.
Lemma rotation_mod : forall e k i, Cmod (rotation_of e k i) = 1.
Proof. intros. apply cis_mod. Qed.
Lemma rotation_0 : forall e k, rotation_of e k 0 = RtoC 1.
Proof. intros. unfold rotation_of. cbn [INR]. replace (2 * PI * dot k (vsub (rx_velocity e) (tx_velocity e)) * (carrier e / 299792458 * 0 / bandwidth e)) with 0 by (unfold Rdiv; ring). apply cis_0. Qed.
Lemma rotation_still : forall e k i, rx_velocity e = tx_velocity e -> rotation_of e k i = RtoC 1.
Proof.
  intros e k i H. unfold rotation_of. rewrite H. replace (dot k (vsub (tx_velocity e) (tx_velocity e))) with 0 by (unfold dot, vsub; cbn; ring).
  replace (2 * PI * 0 * (carrier e / 299792458 * INR i / bandwidth e)) with 0 by ring. apply cis_0.
Qed.

Lemma ray_energy : forall s e k y d r t i, In k (clusters s) -> In y (c_rays k) -> unit_coupling s e r t -> line_of_sight s = false -> 0 <= c_power k -> (0 < num_rays s)%nat ->
  Cmod (weight (copy s e (ray_path s e k y d)) r t i) ^ 2 = c_power k / INR (num_rays s).
Proof.
  intros s e k y d r t i Hk Hy Hu Hl Hp Hn. cbn [copy weight ray_path channel impulse]. rewrite !Cmod_mult, rotation_mod, (Hu k y Hk Hy), Cmod_R.
  unfold nlos_scale. rewrite Hl, Rmult_1_r, Rmult_1_l, Rmult_1_r, Rabs_right by (apply Rle_ge, sqrt_pos). apply pow2_sqrt.
  apply Rmult_le_pos; [exact Hp|]. left. apply Rinv_0_lt_compat, lt_0_INR, Hn.
Qed.

Lemma in_number : forall {A} (l : list A) i p, In p (number i l) -> In (snd p) l.
Proof. intros A l. induction l as [|a l IH]; intros i p H; [destruct H|]. destruct H as [<-|H]; [left; reflexivity|right; exact (IH (S i) p H)]. Qed.

Lemma split_energy : forall s e k0 k1 l r t, valid s e -> clusters s = k0 :: k1 :: l -> num_rays s = 20%nat -> line_of_sight s = false -> unit_coupling s e r t ->
  (forall k, In k (clusters s) -> 0 <= c_power k) ->
  energy (copies arrivals s e) r t = 3 / 2 * c_power k0 + 9 / 10 * c_power k1 + real_total c_power l.
Proof.
  intros s e k0 k1 l r t Hv E H20 Hl Hu Hp. apply RtoC_inj. unfold energy. rewrite real_total_C.
  rewrite (copies_total s e _ _ Hv (paths_ok s e Hv)), Hl, app_nil_r, total_map.
  pose proof Hv as [_ [_ [_ [_ [_ Hk]]]]].
  transitivity (total (fun v => let '(c, _, _) := v in RtoC (c_power (nth c (clusters s) blank) / 20)) (visits s)).
  - apply total_ext. intros [[c q] d] Hin. pose proof (visit_ok s e _ Hv Hin) as K. cbn beta iota in K. destruct K as [Hc [Hr _]]. unfold seen.
    rewrite ray_energy; [rewrite H20; do 2 f_equal; cbn [INR]; lra|apply nth_In, Hc|apply nth_In, Hr|exact Hu|exact Hl|apply Hp, nth_In, Hc|lia].
  - rewrite (visits_more s k0 k1 l E), !total_app, !total_thrice, !RtoC_plus, E. cbn [nth]. rewrite <- Cplus_assoc. f_equal; [|f_equal].
    + cbn [map total subcluster_indices nth]. rewrite <- !RtoC_plus. f_equal. cbn [Rplus]. field.
    + cbn [map total subcluster_indices nth]. rewrite <- !RtoC_plus. f_equal. field.
    + unfold later. rewrite total_flat_map, real_total_C. rewrite H20.
      transitivity (total (fun i => RtoC (c_power (nth i l blank))) (seq 0 (length l))).
      * apply total_ext. intros i _. rewrite total_map. cbn [Nat.add nth]. rewrite total_const, seq_length, <- RtoC_mult. f_equal. cbn [INR]. field.
      * clear. induction l as [|a l IH]; [reflexivity|]. cbn [length seq total nth]. f_equal. rewrite <- seq_shift, total_map. exact IH.
Qed.

(** ** Rice factors *)
Lemma scattered_weight : forall s e k y d r t, line_of_sight s = true -> let K := Rpower 10 (rice_factor s / 10) in
  Cmod (weight (copy s e (ray_path s e k y d)) r t 0%nat) ^ 2 = / (1 + K) * Cmod (weight (copy (scattered s) e (ray_path (scattered s) e k y d)) r t 0%nat) ^ 2.
Proof.
  intros s e k y d r t Hl K. cbn [copy weight ray_path channel impulse scattered num_rays]. rewrite !Cmod_mult, !Cmod_R.
  unfold nlos_scale. rewrite Hl. cbn [line_of_sight]. rewrite Rmult_1_r, Rabs_mult. unfold db2lin. cbn [factor].
  change (Rpower 10 (rice_factor s / 10)) with K. assert (HK : 0 < 1 + K) by (pose proof (exp_pos (rice_factor s / 10 * ln 10)); unfold K, Rpower; lra).
  assert (Hs : (Rabs (/ sqrt (1 + K))) ^ 2 = / (1 + K)).
  { assert (Hq : 0 < sqrt (1 + K)) by (apply sqrt_lt_R0, HK). rewrite Rabs_right by (left; apply Rinv_0_lt_compat, Hq). rewrite pow_inv, pow2_sqrt by lra. reflexivity. }
  rewrite !Rpow_mult_distr, Hs. ring.
Qed.
Lemma rice_energy : forall s e r t, line_of_sight s = true -> let K := Rpower 10 (rice_factor s / 10) in
  energy (copies arrivals s e) r t = energy (copies arrivals (scattered s) e) r t / (1 + K) + Cmod (couple (rx e (tx_position e) r) los_matrix (tx e (rx_position e) t)) ^ 2 * (K / (1 + K)).
Proof.
  intros s e r t Hl K. apply RtoC_inj. unfold energy, copies. rewrite Hl. cbn [scattered line_of_sight]. rewrite app_nil_r.
  unfold Rdiv at 1. rewrite RtoC_plus, RtoC_mult, !real_total_C, total_app, Cmult_comm. f_equal.
  - rewrite <- total_scal, !total_flat_map. apply total_ext. intros k _. rewrite !total_flat_map. apply total_ext. intros y _. rewrite !total_map.
    apply total_ext. intros d _. rewrite (scattered_weight s e _ _ _ r t Hl), RtoC_mult. reflexivity.
  - cbn [total]. rewrite Cplus_0_r. f_equal. cbn [copy weight los_path channel impulse]. rewrite !Cmod_mult, cis_mod, rotation_mod, Cmod_R. unfold db2lin. cbn [factor].
    change (Rpower 10 (rice_factor s / 10)) with K. rewrite Rabs_right by (apply Rle_ge, sqrt_pos). rewrite !Rmult_1_r, Rpow_mult_distr, pow2_sqrt; [reflexivity|].
    assert (0 < K) by (apply exp_pos). apply Rmult_le_pos; [lra|]. left. apply Rinv_0_lt_compat. lra.
Qed.

(** ** Reciprocal samples *)
Lemma reciprocal_delays : forall s, map c_delay (clusters (reciprocal s)) = map c_delay (clusters s).
Proof. intros s. unfold reciprocal. cbn [clusters]. rewrite map_map. reflexivity. Qed.
Lemma reciprocal_max_delay : forall s, max_delay (reciprocal s) = max_delay s.
Proof. intros s. unfold max_delay. rewrite reciprocal_delays. reflexivity. Qed.
Lemma reciprocal_valid : forall s e, valid s e -> valid (reciprocal s) (swap e).
Proof.
  intros s e [H1 [H2 [H3 [H4 [H5 H6]]]]]. unfold valid. cbn [reciprocal swap clusters num_rays delay_spread delay_offset bandwidth].
  split; [intros H; apply map_eq_nil in H; contradiction|]. split; [exact H2|]. split; [exact H3|]. split; [exact H4|]. split; [exact H5|].
  intros k Hk. apply in_map_iff in Hk. destruct Hk as [q [<- Hq]]. cbn [c_rays c_delay]. rewrite map_length. apply H6, Hq.
Qed.
Lemma reciprocal_visits : forall s e, valid s e -> visits (reciprocal s) = visits s.
Proof.
  intros s e [Hne _]. destruct (clusters s) as [|k0 [|k1 l]] eqn:E; [contradiction| |].
  - rewrite (visits_one s k0 E). erewrite visits_one by (unfold reciprocal; cbn [clusters]; rewrite E; reflexivity). reflexivity.
  - rewrite (visits_more s k0 k1 l E). set (f := fun c => mkCluster (c_delay c) (c_power c) (map turned (c_rays c))).
    rewrite (visits_more (reciprocal s) (f k0) (f k1) (map f l)) by (unfold reciprocal; cbn [clusters]; rewrite E; reflexivity).
    unfold thrice, later. cbn [reciprocal delay_spread num_rays c_delay]. rewrite map_length, map_map. reflexivity.
Qed.
Lemma couple_symmetric : forall a m b, symmetric m -> couple b m a = couple a m b.
Proof. intros a [[p q] [u v]] b H. unfold symmetric in H. cbn [fst snd] in H. subst. unfold couple. cbn [fst snd]. ring. Qed.
Lemma seen_reciprocal : forall s e v, valid s e -> In v (visits s) -> (forall k y, In k (clusters s) -> In y (c_rays k) -> symmetric (jones y)) ->
  p_delay (seen (reciprocal s) (swap e) v) = p_delay (seen s e v) /\
  forall r t, channel (seen (reciprocal s) (swap e) v) t r = channel (seen s e v) r t.
Proof.
  intros s e [[c q] d] Hv Hin Hs. split; [reflexivity|]. intros r t. pose proof (visit_ok s e _ Hv Hin) as K. cbn beta iota in K. destruct K as [Hc [Hr _]].
  unfold seen. cbn [reciprocal clusters].
  change blank with ((fun c => mkCluster (c_delay c) (c_power c) (map turned (c_rays c))) blank) at 1 2. rewrite map_nth.
  cbn [c_rays]. change dull with (turned dull) at 1. rewrite map_nth. cbn [ray_path channel c_power turned aoa zoa aod zod jones swap rx tx num_rays].
  unfold nlos_scale. cbn [line_of_sight rice_factor]. rewrite couple_symmetric; [reflexivity|]. apply (Hs (nth c (clusters s) blank)); apply nth_In; assumption.
Qed.

(** ** Samples with a single cluster of equal rays *)
Definition simple (los : bool) (power : R) (y : ray) : sample := mkSample los 0 0 0 20 [mkCluster 0 power (repeat y 20)].
Lemma simple_valid : forall los p y e, 0 < bandwidth e -> valid (simple los p y) e.
Proof.
  intros los p y e Hb. unfold valid. cbn [simple clusters num_rays delay_spread delay_offset]. split; [discriminate|]. split; [lia|]. split; [lra|]. split; [lra|]. split; [exact Hb|].
  intros k [<-|[]]. cbn [c_rays c_delay]. split; [apply repeat_length|lra].
Qed.
Lemma simple_total : forall p y e F, 0 < bandwidth e ->
  total F (copies arrivals (simple false p y) e) = (RtoC 30 * F (copy (simple false p y) e (ray_path (simple false p y) e (mkCluster 0 p (repeat y 20)) y 0)))%C.
Proof.
  intros p y e F Hb. pose proof (simple_valid false p y e Hb) as Hv. rewrite (copies_total _ e _ F Hv (paths_ok _ e Hv)). change (line_of_sight (simple false p y)) with false. cbn iota. rewrite app_nil_r, total_map.
  rewrite (visits_one (simple false p y) (mkCluster 0 p (repeat y 20)) eq_refl).
  rewrite (total_ext _ (fun _ => F (copy (simple false p y) e (ray_path (simple false p y) e (mkCluster 0 p (repeat y 20)) y 0)))).
  - rewrite total_const. f_equal. cbn [thrice flat_map map app length nth subcluster_indices]. f_equal. cbn [INR]. lra.
  - intros v Hin. apply in_thrice in Hin. destruct Hin as [r [q [-> [Hr _]]]]. apply part_bound in Hr. cbn [seen simple clusters nth delay_spread c_delay c_rays].
    replace (0 + 0 * q) with 0 by ring. f_equal. f_equal. f_equal.
    rewrite (nth_indep _ dull y) by (rewrite repeat_length; exact Hr). apply nth_repeat.
Qed.
Lemma simple_output : forall p y e b, 0 < bandwidth e -> n_tx e = 1%nat -> streams b = 1%nat ->
  exists z, propagate (simple false p y) e NEAREST b = Ok z /\ streams z = n_rx e /\ samples z = samples b /\
  forall r j, (j < samples b)%nat ->
    x z r j = (RtoC (30 * sqrt (p / 20)) * couple (rx e (From_Spherical (aoa y) (zoa y)) r) (jones y) (tx e (From_Spherical (aod y) (zod y)) 0) * rotation_of e (wave_vector (aoa y) (zoa y)) j * x b 0%nat j)%C.
Proof.
  intros p y e b Hb Ht Hs. destruct (propagate_received (simple false p y) e b (simple_valid _ _ _ _ Hb) ltac:(congruence)) as [z [Ez [Sz [Nz [Oz Xz]]]]].
  exists z. split; [exact Ez|]. split; [exact Sz|].
  assert (E0 : max_delay (simple false p y) = 0).
  { unfold max_delay. cbn [simple clusters map c_delay delay_spread delay_offset firstn Ray_Model.list_max fold_left]. rewrite Rmult_0_l, !Rplus_0_r. unfold Rmax. destruct (Rle_dec 0 0); reflexivity. }
  split.
  - rewrite Nz, E0, Rmult_0_l. unfold ceil_of. rewrite Ropp_0. replace (Int_part 0) with 0%Z; [cbn; lia|]. pose proof (floor_spec 0) as [Ha Hb'].
    assert ((Int_part 0 <= 0)%Z) by (apply le_IZR; lra). assert ((0 < Int_part 0 + 1)%Z) by (apply lt_IZR; rewrite plus_IZR; lra). lia.
  - intros r j Hj. rewrite Xz. unfold received. rewrite simple_total by exact Hb. cbn [copy td weight ray_path p_delay channel impulse]. rewrite Hs.
    assert (E1 : int_of ((0 + delay_offset (simple false p y)) * bandwidth e) = 0%nat).
    { cbn [simple delay_offset]. rewrite Rplus_0_r, Rmult_0_l. pose proof (int_ceil 0 0 ltac:(lra) ltac:(lra)) as K. unfold int_of in *. pose proof (floor_spec 0) as [Ha _].
      assert ((Int_part 0 <= 0)%Z) by (apply le_IZR; lra). lia. }
    rewrite E1. cbn [csum Nat.leb andb Nat.add]. rewrite Nat.sub_0_r. replace (Nat.ltb j (samples b)) with true by (symmetry; apply Nat.ltb_lt; exact Hj).
    cbn [c_power simple num_rays line_of_sight nlos_scale]. unfold nlos_scale. cbn [line_of_sight]. replace (INR 20) with 20 by (cbn [INR]; lra). rewrite !RtoC_mult. ring.
Qed.

(** ** Attenuation *)
Lemma attenuated_valid : forall a s e, valid s e -> valid (attenuated a s) e.
Proof.
  intros a s e [H1 [H2 [H3 [H4 [H5 H6]]]]]. unfold valid. cbn [attenuated clusters num_rays delay_spread delay_offset].
  split; [intros H; apply map_eq_nil in H; contradiction|]. split; [exact H2|]. split; [exact H3|]. split; [exact H4|]. split; [exact H5|].
  intros k Hk. apply in_map_iff in Hk. destruct Hk as [q [<- Hq]]. cbn [c_rays c_delay]. apply H6, Hq.
Qed.
Lemma number_map : forall {A B} (f : A -> B) l i, number i (map f l) = map (fun p => (fst p, f (snd p))) (number i l).
Proof. intros A B f l. induction l as [|a l IH]; intros i; [reflexivity|]. cbn [map number fst snd]. rewrite IH. reflexivity. Qed.
Lemma attenuated_los : forall a s e, copy (attenuated a s) e (los_path (attenuated a s) e) = copy s e (los_path s e).
Proof. intros a s e. unfold copy, los_path. cbn [attenuated delay_offset rice_factor clusters p_delay channel impulse]. destruct (clusters s); reflexivity. Qed.
Lemma attenuated_received : forall a s e b r j, 0 <= a -> (forall k, In k (clusters s) -> 0 <= c_power k) ->
  received (copies arrivals (attenuated a s) e) b r j =
  (RtoC (sqrt a) * received (copies arrivals s e) b r j + (if line_of_sight s then RtoC (1 - sqrt a) * received [copy s e (los_path s e)] b r j else RtoC 0))%C.
Proof.
  intros a s e b r j Ha Hp. unfold received, copies. rewrite !total_app, !total_flat_map. cbn [attenuated clusters line_of_sight]. rewrite number_map, total_map.
  assert (K : forall x y l z, (x = RtoC (sqrt a) * y)%C -> (l + RtoC 0 = z)%C -> (x + l = RtoC (sqrt a) * (y + l) + RtoC (1 - sqrt a) * z)%C).
  { intros u v l z -> <-. rewrite RtoC_minus. ring. }
  match goal with |- (?A + ?L = RtoC (sqrt a) * (?B + ?M) + _)%C => assert (E : A = (RtoC (sqrt a) * B)%C) end.
  { rewrite <- total_scal. apply total_ext. intros [c k] Hk. apply in_number in Hk. cbn [fst snd c_rays] in *. rewrite !total_flat_map, <- total_scal. apply total_ext. intros [q y] _. cbn [fst snd].
    unfold arrivals. cbn [c_delay attenuated delay_spread]. rewrite !total_map, <- total_scal. apply total_ext. intros d _. rewrite <- csum_scal. apply csum_ext. intros t _.
    cbn [copy td weight ray_path p_delay channel impulse attenuated delay_offset c_power num_rays]. unfold nlos_scale. cbn [line_of_sight rice_factor attenuated].
    replace (a * c_power k / INR (num_rays s)) with (a * (c_power k / INR (num_rays s))) by (unfold Rdiv; ring). rewrite sqrt_mult_alt by exact Ha. rewrite !RtoC_mult.
    destruct (_ && _)%bool; ring. }
  rewrite E. destruct (line_of_sight s); [|cbn [total]; ring]. rewrite attenuated_los. cbn [total]. rewrite RtoC_minus. ring.
Qed.

(** ** Missing rays *)
Lemma mapM_fails : forall {A B} (f : A -> result B) x l, (forall a, In a l -> (exists b, f a = Ok b) \/ f a = Raise x) -> (exists a, In a l /\ f a = Raise x) -> mapM f l = Raise x.
Proof.
  intros A B f x l. induction l as [|a l IH]; intros H [q [Hq Eq]]; [destruct Hq|]. cbn [mapM]. destruct (H a (or_introl eq_refl)) as [[b Eb]|Ea]; [|rewrite Ea; reflexivity].
  rewrite Eb. cbn [bind]. rewrite IH; [reflexivity|intros; apply H; right; assumption|]. destruct Hq as [->|Hq]; [congruence|]. exists q. split; assumption.
Qed.
Lemma paths_missing : forall s e k l, clusters s = k :: l -> (length (c_rays k) < 20)%nat -> paths s e = Raise IndexError.
Proof.
  intros s e k l E Hl. unfold paths. rewrite (mapM_fails (visit_path s e) IndexError); [reflexivity| |].
  - intros [[c r] d] _. unfold visit_path. destruct (nth_error (clusters s) c) as [q|]; [|right; reflexivity]. destruct (nth_error (c_rays q) r); [left; eexists; reflexivity|right; reflexivity].
  - exists (0%nat, 19%nat, c_delay k + delay_spread s * 0). split.
    + assert (In (0%nat, 19%nat, c_delay k + delay_spread s * 0) (thrice s 0 k (nth 0 subcluster_indices []))) as K.
      { unfold thrice. apply in_flat_map. exists 0. split; [left; reflexivity|]. apply in_map_iff. exists 19%nat. split; [reflexivity|]. cbn. tauto. }
      destruct l as [|k1 l]; [rewrite (visits_one s k E); exact K|]. rewrite (visits_more s k k1 l E). apply in_or_app. left. exact K.
    + unfold visit_path. rewrite E. change (nth_error (k :: l) 0) with (Some k). cbn iota beta.
      assert (N : nth_error (c_rays k) 19 = None) by (apply nth_error_None; lia). rewrite N. reflexivity.
Qed.
