(** Proofs for least squares channel estimation. *)
From Coq Require Import List Arith Bool Reals Lra Lia.
From Coquelicot Require Import Complex.
From Verif Require Import Base BaseLemmas Grid_Model Grid_Spec Grid_Proofs Lse_Model Lse_Spec.
Import ListNotations.
Local Open Scope nat_scope.

Lemma same_true p q : same p q = true <-> p = q.
Proof.
  destruct p as [a b], q as [c d]. unfold same. cbn [fst snd]. rewrite andb_true_iff, !Nat.eqb_eq. split; [intros [-> ->]; reflexivity|intros H; injection H as -> ->; auto].
Qed.
Lemma store_in ps vs t p : length vs = length ps -> In p ps -> exists v, In (p, v) (combine ps vs) /\ store ps vs t p = v.
Proof.
  intros Hl Hin. unfold store. destruct (find (fun q => same (fst q) p) (combine ps vs)) as [[q v]|] eqn:E.
  - apply find_some in E. destruct E as [E1 E2]. cbn [fst] in E2. apply same_true in E2. subst q. exists v. split; [exact E1|reflexivity].
  - exfalso. clear - Hl Hin E. revert vs Hl E. induction ps as [|q ps IH]; intros [|v vs] Hl E; cbn [length] in Hl; try discriminate; [destruct Hin|].
    cbn [combine find fst] in E. destruct (same q p) eqn:Es; [discriminate|]. destruct Hin as [->|Hin]; [assert (same p p = true) by (apply same_true; reflexivity); congruence|].
    apply (IH Hin vs); [lia|exact E].
Qed.
Lemma store_out ps vs t p : ~ In p ps -> store ps vs t p = t p.
Proof.
  intros H. unfold store. destruct (find (fun q => same (fst q) p) (combine ps vs)) as [[q v]|] eqn:E; [|reflexivity].
  apply find_some in E. destruct E as [E1 E2]. cbn [fst] in E2. apply same_true in E2. subst q. exfalso. apply H. eapply in_combine_l. exact E1.
Qed.
Lemma in_combine_map {B} (f : place_of -> B) : forall ps p v, In (p, v) (combine ps (map f ps)) -> v = f p.
Proof. induction ps as [|q ps IH]; intros p v H; [destruct H|]. cbn [map combine] in H. destruct H as [H|H]; [injection H as <- <-; reflexivity|apply IH; exact H]. Qed.
Lemma store_map ps (f : place_of -> option C) t p : In p ps -> store ps (map f ps) t p = f p.
Proof. intros H. destruct (store_in ps (map f ps) t p) as [v [H1 H2]]; [apply map_length|exact H|]. rewrite H2. eapply in_combine_map. exact H1. Qed.
Lemma in_cells words width p : In p (cells words width) <-> fst p < words /\ snd p < width.
Proof. destruct p as [i j]. unfold cells. rewrite in_prod_iff, !in_seq. cbn [fst snd]. lia. Qed.
Lemma in_where words width f p : In p (where_ words width f) <-> (fst p < words /\ snd p < width) /\ f p = true.
Proof. unfold where_. rewrite filter_In, in_cells. reflexivity. Qed.

(** ** Weighted means *)
Lemma ctotal_affine (h : C) : forall ws (ds : list C), length ds = length ws ->
  ctotal (map (fun q => Cmult (RtoC (fst q)) (snd q)) (combine ws (map (fun d => Cplus h d) ds))) =
  Cplus (Cmult (RtoC (rtotal ws)) h) (ctotal (map (fun q => Cmult (RtoC (fst q)) (snd q)) (combine ws ds))).
Proof.
  induction ws as [|w ws IH]; intros [|d ds] Hl; try discriminate; cbn [map combine ctotal rtotal fst snd]; [ring|].
  rewrite IH by (cbn in Hl; lia). rewrite RtoC_plus. ring.
Qed.
Lemma ctotal_bound (e : R) : forall ws (ds : list C), length ds = length ws -> List.Forall (fun x => (0 <= x)%R) ws -> List.Forall (fun d => (Cmod d <= e)%R) ds ->
  (Cmod (ctotal (map (fun q => Cmult (RtoC (fst q)) (snd q)) (combine ws ds))) <= rtotal ws * e)%R.
Proof.
  induction ws as [|w ws IH]; intros [|d ds] Hl Hw Hd; try discriminate; cbn [map combine ctotal rtotal fst snd]; [rewrite Cmod_0; lra|].
  inversion Hw; inversion Hd; subst. eapply Rle_trans; [apply Cmod_triangle|]. rewrite Cmod_mult, Cmod_R, Rabs_pos_eq by assumption.
  specialize (IH ds ltac:(cbn in Hl; lia) ltac:(assumption) ltac:(assumption)). assert (w * Cmod d <= w * e)%R by (apply Rmult_le_compat_l; assumption). lra.
Qed.
(** a weighted mean of values near h is near h *)
Lemma mean_near points values p z h e : length values = length points -> weighted_mean points values p z -> List.Forall (fun v => (Cmod (Cminus v h) <= e)%R) values ->
  (Cmod (Cminus z h) <= e)%R.
Proof.
  intros Hl [ws [H1 [H2 [H3 [_ [_ ->]]]]]] Hv.
  assert (Hm : values = map (fun d => Cplus h d) (map (fun v => Cminus v h) values)).
  { rewrite map_map. rewrite <- (map_id values) at 1. apply map_ext. intros v. ring. }
  rewrite Hm, ctotal_affine by (rewrite map_length; lia). rewrite H3.
  replace (Cminus (Cplus (Cmult (RtoC 1) h) (ctotal (map (fun q => Cmult (RtoC (fst q)) (snd q)) (combine ws (map (fun v => Cminus v h) values))))) h)
    with (ctotal (map (fun q => Cmult (RtoC (fst q)) (snd q)) (combine ws (map (fun v => Cminus v h) values)))) by ring.
  replace e with (rtotal ws * e)%R by (rewrite H3; lra). apply ctotal_bound; [rewrite map_length; lia|exact H2|]. apply Forall_map. exact Hv.
Qed.
(** a weighted mean of values on a plane lies on the plane *)
Lemma mean_plane a b c points p z :
  weighted_mean points (map (fun q => Cplus a (Cplus (Cmult b (RtoC (fst (coordinates q)))) (Cmult c (RtoC (snd (coordinates q)))))) points) p z ->
  z = Cplus a (Cplus (Cmult b (RtoC (fst (coordinates p)))) (Cmult c (RtoC (snd (coordinates p))))).
Proof.
  intros [ws [H1 [H2 [H3 [H4 [H5 ->]]]]]]. rewrite <- H4, <- H5.
  assert (K : forall ws points, length ws = length points ->
    ctotal (map (fun q => Cmult (RtoC (fst q)) (snd q)) (combine ws (map (fun q => Cplus a (Cplus (Cmult b (RtoC (fst (coordinates q)))) (Cmult c (RtoC (snd (coordinates q)))))) points))) =
    Cplus (Cmult (RtoC (rtotal ws)) a) (Cplus (Cmult b (RtoC (rtotal (map (fun q => fst q * fst (coordinates (snd q)))%R (combine ws points)))))
      (Cmult c (RtoC (rtotal (map (fun q => fst q * snd (coordinates (snd q)))%R (combine ws points))))))).
  { clear. induction ws as [|w ws IH]; intros [|q points] Hl; try discriminate; cbn [map combine ctotal rtotal fst snd]; [ring|].
    rewrite IH by (cbn in Hl; lia). rewrite !RtoC_plus, !RtoC_mult. ring. }
  rewrite K by exact H1. rewrite H3. ring.
Qed.

(** ** Frames *)
Lemma nth_tab {T} (f : nat -> T) d len n : n < len -> nth n (map f (seq 0 len)) d = f n.
Proof. intros H. rewrite (nth_indep _ d (f 0)) by (rewrite map_length, seq_length; exact H). rewrite map_nth, seq_nth by exact H. reflexivity. Qed.
Lemma over_entry h n words width g p : fst p < words -> snd p < width -> entry (RtoC 0) (over h n words width g) p = Cplus (Cmult (h p) (entry (RtoC 0) g p)) (n p).
Proof.
  intros Hi Hj. destruct p as [i j]. unfold over, entry at 1. cbn [fst snd] in *.
  rewrite (nth_tab (fun i => map (fun j => Cplus (Cmult (h (i, j)) (entry (RtoC 0) g (i, j))) (n (i, j))) (seq 0 width)) [] words i Hi). rewrite nth_tab by exact Hj. reflexivity.
Qed.
Lemma over_shape h n words width g : (length (over h n words width g) =? words) && forallb (fun r => length r =? width) (over h n words width g) = true.
Proof.
  unfold over. rewrite map_length, seq_length, Nat.eqb_refl. cbn [andb]. apply forallb_forall. intros r Hr. apply in_map_iff in Hr. destruct Hr as [i [<- _]].
  rewrite map_length, seq_length. apply Nat.eqb_refl.
Qed.
Lemma frame_references (w : @wave C) data grid mask : pilots_ok w -> forallb (fun s => negb (is_pilot s)) (w_struct w) = true ->
  place (RtoC 0) w data = Ok grid -> resource_mask w = Ok mask ->
  let stems := where_ (words_per_frame w) (w_sub w) (is_reference mask) in
  pilot_symbols w (length stems) = Ok (map (entry (RtoC 0) grid) stems) /\ shape (words_per_frame w) (w_sub w) grid /\ pick w grid = Ok data.
Proof.
  intros Hp Hn H Hm stems. apply (place_inv (RtoC 0) w data grid Hp) in H. destruct H as [Hf [refs [m [Hr [Hm' [Hd [Sg [Sm [Gd [Gr [Gb Pk]]]]]]]]]]].
  rewrite Hm in Hm'. injection Hm' as <-. pose proof (pilot_symbols_spec w _ _ Hr) as [Hl _].
  rewrite <- frame_refs_expected in Gr; [|apply Hp|apply pilots_sec_ok, Hp]. rewrite frame_refs_no_pilot in Gr by assumption.
  rewrite (gather_positions (RtoC 0) REFERENCE _ _ mask grid Sm Sg) in Gr. change (positions REFERENCE (words_per_frame w) (w_sub w) mask) with stems in Gr.
  split; [|split; assumption]. assert (L : length stems = references_per_frame w) by (rewrite <- Hl, <- Gr, map_length; reflexivity). rewrite L, Hr, <- Gr. reflexivity.
Qed.

Section E.
Variable linear : list place_of -> list C -> list place_of -> result (list (option C)).
Variable nearest : list place_of -> list C -> list place_of -> list C.
Notation estimate := (estimate linear nearest).

(** What an estimation does, for received frames of the right shape *)
Lemma combine_quotients (f g : place_of -> C) : forall ps, map (fun p => Cdiv (fst p) (snd p)) (combine (map f ps) (map g ps)) = map (fun p => Cdiv (f p) (g p)) ps.
Proof. induction ps as [|p ps IH]; [reflexivity|]. cbn [map combine fst snd]. rewrite IH. reflexivity. Qed.
Lemma estimate_spec (w : @wave C) mask refs received t : resource_mask w = Ok mask ->
  (length received =? words_per_frame w) && forallb (fun r => length r =? w_sub w) received = true ->
  let stems := where_ (words_per_frame w) (w_sub w) (is_reference mask) in
  let holes := where_ (words_per_frame w) (w_sub w) (fun p => negb (is_reference mask p)) in
  pilot_symbols w (length stems) = Ok (map refs stems) ->
  let q := fun p : place_of => Cdiv (entry (RtoC 0) received p) (refs p) in
  estimate w 1 received = Ok t ->
  exists v t1, (holes = [] /\ v = [] \/ linear stems (map q stems) holes = Ok v) /\ t1 = store holes v (store stems (map Some (map q stems)) (fun _ => Some (RtoC 0))) /\
  let nans := where_ (words_per_frame w) (w_sub w) (is_nan t1) in
  let known := where_ (words_per_frame w) (w_sub w) (fun p => negb (is_nan t1 p)) in
  t = store nans (map Some (nearest known (map (value t1) known) nans)) t1.
Proof.
  intros Hm Hs stems holes Hr q H. unfold Lse_Model.estimate in H. cbn [Nat.eqb negb] in H. rewrite Hm in H. cbn [bind] in H. cbv zeta in H. rewrite Hs in H. cbn [negb] in H. fold stems holes in H.
  replace (pilot_symbols w (length (map (entry (RtoC 0) received) stems))) with (Ok (map refs stems)) in H by (rewrite map_length; symmetry; exact Hr). cbn [bind] in H. rewrite combine_quotients in H. fold q in H.
  clearbody holes. destruct holes as [|h0 hs].
  - cbn [bind] in H. injection H as H. exists [], (store [] [] (store stems (map Some (map q stems)) (fun _ => Some (RtoC 0)))). split; [left; auto|]. split; [reflexivity|].
    cbv zeta. rewrite <- H. reflexivity.
  - cbn [bind] in H. remember (h0 :: hs) as holes. destruct (linear stems (map q stems) holes) as [v|e] eqn:El; cbn [bind] in H; [|discriminate]. injection H as H. exists v, (store holes v (store stems (map Some (map q stems)) (fun _ => Some (RtoC 0)))).
    split; [right; reflexivity|]. split; [reflexivity|]. cbv zeta. rewrite <- H. reflexivity.
Qed.
Lemma Forall2_combine {B D} (Q : B -> D -> Prop) : forall l m, Forall2 Q l m -> forall x y, In (x, y) (combine l m) -> Q x y.
Proof. intros l m H. induction H as [|a b l m Hab H IH]; intros x y Hin; [destruct Hin|]. cbn [combine] in Hin. destruct Hin as [E|Hin]; [injection E as <- <-; exact Hab|apply IH; exact Hin]. Qed.

Section F.
Variables (w : @wave C) (mask : list (list (option etype))) (refs : place_of -> C) (received : list (list C)) (t : table).
Hypothesis Hm : resource_mask w = Ok mask.
Hypothesis Hs : (length received =? words_per_frame w) && forallb (fun r => length r =? w_sub w) received = true.
Let stems := where_ (words_per_frame w) (w_sub w) (is_reference mask).
Let holes := where_ (words_per_frame w) (w_sub w) (fun p => negb (is_reference mask p)).
Hypothesis Hr : pilot_symbols w (length stems) = Ok (map refs stems).
Let q := fun p : place_of => Cdiv (entry (RtoC 0) received p) (refs p).
Hypothesis He : estimate w 1 received = Ok t.

Lemma hole_not_stem p : In p stems -> ~ In p holes.
Proof. intros H1 H2. apply in_where in H1. apply in_where in H2. destruct H1 as [_ H1], H2 as [_ H2]. rewrite H1 in H2. discriminate. Qed.
Lemma at_stem p : In p stems -> t p = Some (q p).
Proof.
  intros Hp. destruct (estimate_spec w mask refs received t Hm Hs Hr He) as [v [t1 [_ [E1 E2]]]].
  assert (T1 : t1 p = Some (q p)).
  { rewrite E1, store_out by (apply hole_not_stem; exact Hp). rewrite map_map. apply (store_map _ (fun p => Some (q p))). exact Hp. }
  rewrite E2, store_out; [exact T1|]. intros Hin. apply in_where in Hin. destruct Hin as [_ Hin]. unfold is_nan in Hin. rewrite T1 in Hin. discriminate.
Qed.
(** holes in which the interpolation returns a value *)
Lemma at_hole p : In p holes -> (forall v, linear stems (map q stems) holes = Ok v -> length v = length holes) ->
  exists v, linear stems (map q stems) holes = Ok v /\ (exists o, In (p, o) (combine holes v) /\ forall z, o = Some z -> t p = Some z).
Proof.
  intros Hp Hlen. destruct (estimate_spec w mask refs received t Hm Hs Hr He) as [v [t1 [Ev [E1 E2]]]].
  destruct Ev as [[Ev _]|Ev]; [fold holes in Ev; rewrite Ev in Hp; destruct Hp|]. fold stems holes q in Ev, E1. exists v. split; [exact Ev|].
  destruct (store_in holes v (store stems (map Some (map q stems)) (fun _ => Some (RtoC 0))) p (Hlen v Ev) Hp) as [o [Ho Hst]]. exists o. split; [exact Ho|]. intros z ->.
  rewrite E2, store_out; [rewrite E1; exact Hst|]. intros Hin. apply in_where in Hin. destruct Hin as [_ Hin]. unfold is_nan in Hin. rewrite E1, Hst in Hin. discriminate.
Qed.
(** a property that holds at the references, for weighted means and is inherited by copies holds everywhere *)
Lemma everywhere (P : C -> Prop) : stems <> [] -> (forall p, In p stems -> P (q p)) -> (forall p z, weighted_mean stems (map q stems) p z -> P z) ->
  (forall v, linear stems (map q stems) holes = Ok v -> interpolated stems (map q stems) holes v) ->
  (forall points values places, length values = length points -> points <> [] -> chosen values places (nearest points values places)) ->
  forall p, fst p < words_per_frame w -> snd p < w_sub w -> exists z, t p = Some z /\ P z.
Proof.
  intros Hne HP HM HL HN p Hi Hj. destruct (estimate_spec w mask refs received t Hm Hs Hr He) as [v [t1 [Ev [E1 E2]]]]. fold stems holes q in Ev, E1.
  assert (T1 : forall p, fst p < words_per_frame w -> snd p < w_sub w -> forall z, t1 p = Some z -> P z).
  { intros p' Hi' Hj' z Hz. destruct (is_reference mask p') eqn:Er.
    - assert (Hin : In p' stems) by (apply in_where; auto). rewrite E1, store_out in Hz by (apply hole_not_stem; exact Hin). rewrite map_map in Hz.
      rewrite (store_map _ (fun p => Some (q p))) in Hz by exact Hin. injection Hz as <-. apply HP. exact Hin.
    - assert (Hin : In p' holes) by (apply in_where; rewrite Er; auto). destruct Ev as [[Ev _]|Ev]; [rewrite Ev in Hin; destruct Hin|]. specialize (HL v Ev).
      destruct (store_in holes v (store stems (map Some (map q stems)) (fun _ => Some (RtoC 0))) p') as [o [Ho Hst]]; [symmetry; eapply Forall2_len; exact HL|exact Hin|].
      rewrite E1, Hst in Hz. subst o. pose proof (Forall2_combine _ _ _ HL p' (Some z) Ho) as K. apply (HM p'). exact K. }
  set (nans := where_ (words_per_frame w) (w_sub w) (is_nan t1)) in *. set (known := where_ (words_per_frame w) (w_sub w) (fun p => negb (is_nan t1 p))) in *. cbv zeta in E2.
  assert (Hk : known <> []).
  { destruct stems as [|s0 ss] eqn:Es; [congruence|]. assert (Hin : In s0 stems) by (rewrite Es; left; reflexivity). intros Ek.
    assert (Hin' : In s0 known).
    { apply in_where. pose proof Hin as Hin2. apply in_where in Hin2. destruct Hin2 as [Hc _]. split; [exact Hc|]. unfold is_nan. rewrite E1. rewrite <- Es in *. rewrite store_out by (apply hole_not_stem; exact Hin).
      rewrite map_map. rewrite (store_map _ (fun p => Some (q p))) by exact Hin. reflexivity. }
    rewrite Ek in Hin'. destruct Hin'. }
  destruct (HN known (map (value t1) known) nans ltac:(apply map_length) Hk) as [N1 N2].
  destruct (t1 p) as [z|] eqn:Ep.
  - exists z. split; [|apply (T1 p Hi Hj z Ep)]. rewrite E2, store_out; [exact Ep|]. intros Hin. apply in_where in Hin. destruct Hin as [_ Hin]. unfold is_nan in Hin. rewrite Ep in Hin. discriminate.
  - assert (Hin : In p nans) by (apply in_where; unfold is_nan; rewrite Ep; auto).
    destruct (store_in nans (map Some (nearest known (map (value t1) known) nans)) t1 p) as [o [Ho Hst]]; [rewrite map_length; exact N1|exact Hin|].
    apply in_combine_r in Ho. apply in_map_iff in Ho. destruct Ho as [z [<- Hz]]. exists z. split; [rewrite E2; exact Hst|].
    rewrite Forall_forall in N2. specialize (N2 z Hz). apply in_map_iff in N2. destruct N2 as [p' [Hv Hp']]. apply in_where in Hp'. destruct Hp' as [[Hi' Hj'] Hnn].
    apply (T1 p' Hi' Hj'). unfold is_nan in Hnn. unfold value in Hv. destruct (t1 p') as [z'|]; [congruence|discriminate].
Qed.
End F.
End E.

Lemma tabulated {B} : forall (ps : list place_of) (vs : list B), NoDup ps -> length vs = length ps -> forall d : B, exists f, vs = map f ps.
Proof.
  induction ps as [|p ps IH]; intros [|v vs] Hn Hl d; try discriminate; [exists (fun _ => d); reflexivity|]. inversion Hn as [|? ? Hni Hn']; subst.
  destruct (IH vs Hn' ltac:(cbn in Hl; lia) d) as [f Hf]. exists (fun q => if same q p then v else f q). cbn [map].
  replace (same p p) with true by (symmetry; apply same_true; reflexivity). f_equal. rewrite Hf at 1. apply map_ext_in. intros q Hq.
  destruct (same q p) eqn:E; [apply same_true in E; subst q; contradiction|reflexivity].
Qed.
Lemma filter_all {B} (f : B -> bool) : forall l, (forall x, In x l -> f x = true) -> filter f l = l.
Proof. induction l as [|a l IH]; intros H; [reflexivity|]. cbn [filter]. rewrite (H a (or_introl eq_refl)), IH by (intros x Hx; apply H; right; exact Hx). reflexivity. Qed.
Lemma NoDup_prod {B D} : forall (l : list B) (m : list D), NoDup l -> NoDup m -> NoDup (list_prod l m).
Proof.
  induction l as [|a l IH]; intros m Hl Hm; [constructor|]. inversion Hl as [|? ? Ha Hl']; subst. cbn [list_prod].
  assert (K : forall (x y : list (B * D)), NoDup x -> NoDup y -> (forall z, In z x -> ~ In z y) -> NoDup (x ++ y)).
  { clear. induction x as [|a x IH]; intros y Hx Hy Hd; [exact Hy|]. inversion Hx; subst. cbn [app]. constructor; [rewrite in_app_iff; intros [H|H]; [contradiction|apply (Hd a); [left; reflexivity|exact H]]|].
    apply IH; [assumption|assumption|]. intros z Hz. apply Hd. right. exact Hz. }
  apply K; [|apply IH; assumption|].
  - apply FinFun.Injective_map_NoDup; [|exact Hm]. intros x y H. injection H as H. exact H.
  - intros [x y] H1 H2. apply in_map_iff in H1. destruct H1 as [d [H1 _]]. injection H1 as <- <-. apply in_prod_iff in H2. apply Ha. apply H2.
Qed.
Lemma nth_repeat_lt {B} (x d : B) : forall n k, k < n -> nth k (repeat x n) d = x.
Proof. induction n as [|n IH]; intros [|k] H; cbn [repeat nth]; try lia; [reflexivity|]. apply IH. lia. Qed.
