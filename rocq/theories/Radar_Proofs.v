(** Proofs about radar detectors. *)
From Coq Require Import Reals List Arith Bool Lia Lra.
From Verif Require Import Base BaseLemmas Radar_Model Radar_Spec.
Import ListNotations.
Open Scope R_scope.

Lemma Rleb_true x y : Rleb x y = true <-> x <= y.
Proof. unfold Rleb. destruct (Rle_dec x y); split; intro; auto; discriminate. Qed.
Lemma Rleb_false x y : Rleb x y = false <-> y < x.
Proof. unfold Rleb. destruct (Rle_dec x y); split; intro H; try discriminate; lra. Qed.
Lemma Rltb_true x y : Rltb x y = true <-> x < y.
Proof. unfold Rltb. destruct (Rlt_dec x y); split; intro; auto; discriminate. Qed.
Lemma Rltb_false x y : Rltb x y = false <-> y <= x.
Proof. unfold Rltb. destruct (Rlt_dec x y); split; intro H; try discriminate; lra. Qed.

(** *** Cells *)
Lemma in_cells c i : In i (cells c) <-> in_cube c i.
Proof.
  destruct i as [[a d] r]. unfold cells, in_cube. rewrite in_flat_map. split.
  - intros [a' [Ha H]]. apply in_flat_map in H. destruct H as [d' [Hd H]]. apply in_map_iff in H. destruct H as [r' [E Hr]].
    injection E as -> -> ->. apply in_seq in Ha, Hd, Hr. lia.
  - intros [Ha [Hd Hr]]. exists a. split; [apply in_seq; lia|]. apply in_flat_map. exists d. split; [apply in_seq; lia|].
    apply in_map_iff. exists r. split; [reflexivity|apply in_seq; lia].
Qed.
Lemma NoDup_flat_map' {A B} (f : A -> list B) l : NoDup l -> (forall x, In x l -> NoDup (f x)) ->
  (forall x y b, In x l -> In y l -> In b (f x) -> In b (f y) -> x = y) -> NoDup (flat_map f l).
Proof.
  induction l as [|x l IH]; intros N H D; [constructor|]. inversion N as [|? ? Nx Nl]; subst. cbn.
  assert (G : forall l1 l2 : list B, NoDup l1 -> NoDup l2 -> (forall b, In b l1 -> ~ In b l2) -> NoDup (l1 ++ l2)).
  { clear. induction l1 as [|b l1 IH]; intros l2 N1 N2 D; [exact N2|]. inversion N1; subst. cbn. constructor.
    - rewrite in_app_iff. intros [K|K]; [contradiction|]. apply (D b); [left; reflexivity|exact K].
    - apply IH; auto. intros b' Hb. apply D. right. exact Hb. }
  apply G.
  - apply H. left. reflexivity.
  - apply IH; auto. + intros y Hy. apply H. right. exact Hy. + intros y z b Hy Hz. apply D; right; assumption.
  - intros b Hb Hb'. apply in_flat_map in Hb'. destruct Hb' as [y [Hy Hby]].
    assert (x = y) by (apply (D x y b); [left; reflexivity|right; exact Hy|exact Hb|exact Hby]). subst. contradiction.
Qed.
Lemma cells_nodup c : NoDup (cells c).
Proof.
  unfold cells. apply NoDup_flat_map'; [apply seq_NoDup| |].
  - intros a _. apply NoDup_flat_map'; [apply seq_NoDup| |].
    + intros d _. apply FinFun.Injective_map_NoDup; [|apply seq_NoDup]. intros x y E. congruence.
    + intros x y b _ _ Hx Hy. apply in_map_iff in Hx, Hy. destruct Hx as [? [<- _]], Hy as [? [E _]]. congruence.
  - intros x y b _ _ Hx Hy. apply in_flat_map in Hx, Hy. destruct Hx as [? [_ Hx]], Hy as [? [_ Hy]].
    apply in_map_iff in Hx, Hy. destruct Hx as [? [<- _]], Hy as [? [E _]]. congruence.
Qed.

(** *** Maxima *)
Lemma fold_Rmax l : forall x, (fold_left Rmax l x = x \/ In (fold_left Rmax l x) l) /\ x <= fold_left Rmax l x /\
  forall y, In y l -> y <= fold_left Rmax l x.
Proof.
  induction l as [|y l IH]; intro x; cbn [fold_left].
  - split; [left; reflexivity|]. split; [lra|]. intros ? [].
  - destruct (IH (Rmax x y)) as [H1 [H2 H3]]. split; [|split].
    + destruct H1 as [H1|H1]; [|right; right; exact H1]. rewrite H1. unfold Rmax. destruct (Rle_dec x y); [right; left|left]; reflexivity.
    + pose proof (Rmax_l x y). lra.
    + intros z [<-|Hz]; [pose proof (Rmax_r x y); lra|]. apply H3, Hz.
Qed.
Lemma fold_Rmin l : forall x, (fold_left Rmin l x = x \/ In (fold_left Rmin l x) l) /\ fold_left Rmin l x <= x /\
  forall y, In y l -> fold_left Rmin l x <= y.
Proof.
  induction l as [|y l IH]; intro x; cbn [fold_left].
  - split; [left; reflexivity|]. split; [lra|]. intros ? [].
  - destruct (IH (Rmin x y)) as [H1 [H2 H3]]. split; [|split].
    + destruct H1 as [H1|H1]; [|right; right; exact H1]. rewrite H1. unfold Rmin. destruct (Rle_dec x y); [left|right; left]; reflexivity.
    + pose proof (Rmin_l x y). lra.
    + intros z [<-|Hz]; [pose proof (Rmin_r x y); lra|]. apply H3, Hz.
Qed.
Lemma list_max_spec l m : list_max l = Ok m -> In m l /\ forall y, In y l -> y <= m.
Proof.
  destruct l as [|x l]; [discriminate|]. cbn [list_max]. intro H. injection H as <-.
  destruct (fold_Rmax l x) as [H1 [H2 H3]]. split.
  - destruct H1 as [->|H1]; [left; reflexivity|right; exact H1].
  - intros y [<-|Hy]; [exact H2|apply H3, Hy].
Qed.
Lemma list_min_spec l m : list_min l = Ok m -> In m l /\ forall y, In y l -> m <= y.
Proof.
  destruct l as [|x l]; [discriminate|]. cbn [list_min]. intro H. injection H as <-.
  destruct (fold_Rmin l x) as [H1 [H2 H3]]. split.
  - destruct H1 as [->|H1]; [left; reflexivity|right; exact H1].
  - intros y [<-|Hy]; [exact H2|apply H3, Hy].
Qed.
Lemma list_max_some l : l <> [] -> exists m, list_max l = Ok m.
Proof. destruct l; [contradiction|]. intros _. eexists. reflexivity. Qed.
Lemma list_min_some l : l <> [] -> exists m, list_min l = Ok m.
Proof. destruct l; [contradiction|]. intros _. eexists. reflexivity. Qed.
Lemma cells_max c m : list_max (map (at_cell c) (cells c)) = Ok m -> is_max c m.
Proof.
  intro H. apply list_max_spec in H. destruct H as [H1 H2]. apply in_map_iff in H1. destruct H1 as [i [E Hi]]. split.
  - exists i. split; [apply in_cells, Hi|exact E].
  - intros j Hj. apply H2, in_map, in_cells, Hj.
Qed.
Lemma cells_min c m : list_min (map (at_cell c) (cells c)) = Ok m -> is_min c m.
Proof.
  intro H. apply list_min_spec in H. destruct H as [H1 H2]. apply in_map_iff in H1. destruct H1 as [i [E Hi]]. split.
  - exists i. split; [apply in_cells, Hi|exact E].
  - intros j Hj. apply H2, in_map, in_cells, Hj.
Qed.
Lemma is_max_unique c m m' : is_max c m -> is_max c m' -> m = m'.
Proof. intros [[i [Hi <-]] H] [[j [Hj <-]] H']. apply Rle_antisym; auto. Qed.
Lemma is_min_unique c m m' : is_min c m -> is_min c m' -> m = m'.
Proof. intros [[i [Hi <-]] H] [[j [Hj <-]] H']. apply Rle_antisym; auto. Qed.
Lemma cells_not_empty c : not_empty c -> cells c <> [].
Proof.
  intros [Ha [Hd Hr]] E. assert (H : In (0, 0, 0)%nat (cells c)) by (apply in_cells; cbn; auto). rewrite E in H. destruct H.
Qed.
Lemma cells_max_of c m : is_max c m -> list_max (map (at_cell c) (cells c)) = Ok m.
Proof.
  intro H. assert (N : map (at_cell c) (cells c) <> []).
  { destruct H as [[i [Hi _]] _]. apply in_cells in Hi. destruct (cells c); [destruct Hi|discriminate]. }
  destruct (list_max_some _ N) as [m' E]. rewrite E. f_equal. apply (is_max_unique c); [apply cells_max, E|exact H].
Qed.
Lemma cells_min_of c m : is_min c m -> list_min (map (at_cell c) (cells c)) = Ok m.
Proof.
  intro H. assert (N : map (at_cell c) (cells c) <> []).
  { destruct H as [[i [Hi _]] _]. apply in_cells in Hi. destruct (cells c); [destruct Hi|discriminate]. }
  destruct (list_min_some _ N) as [m' E]. rewrite E. f_equal. apply (is_min_unique c); [apply cells_min, E|exact H].
Qed.

(** *** Clouds *)
Lemma add_cell_spec c k i : wf c -> in_cube c i -> 0 < at_cell c i ->
  exists p, add_cell c (Ok k) i = Ok (add_point k p) /\ describes c i p.
Proof.
  destruct i as [[a d] r]. intros [W1 [W2 [W3 W4]]] [Ha [Hd Hr]] P. unfold add_cell. cbn [bind].
  unfold velocity_bins. assert (E : Rleb (carrier_frequency c) 0 = false) by (apply Rleb_false, W4). rewrite E. cbn [bind].
  destruct (nth_error (angle_bins c) a) as [[az ze]|] eqn:Ea; [|apply nth_error_None in Ea; lia].
  rewrite (nth_error_nth _ _ (0, 0) Ea).
  destruct (nth_error (range_bins c) r) as [rg|] eqn:Er; [|apply nth_error_None in Er; lia].
  rewrite (nth_error_nth _ _ 0 Er).
  destruct (nth_error (doppler_bins c) d) as [dp|] eqn:Ed; [|apply nth_error_None in Ed; lia].
  assert (Em : nth_error (map (fun f => f * speed_of_light / carrier_frequency c) (doppler_bins c)) d
    = Some (dp * speed_of_light / carrier_frequency c)) by (rewrite nth_error_map', Ed; reflexivity).
  rewrite (nth_error_nth _ _ 0 Em). unfold from_spherical, make_point.
  assert (Ep : Rleb (at_cell c (a, d, r)) 0 = false) by (apply Rleb_false, P). rewrite Ep. cbn [bind].
  eexists. split; [reflexivity|]. exists az, ze, rg, dp. do 5 (split; [reflexivity || assumption|]). reflexivity.
Qed.
Lemma to_cloud_fold c : wf c -> forall found k, Forall (fun i => in_cube c i /\ 0 < at_cell c i) found ->
  exists k', fold_left (add_cell c) found (Ok k) = Ok k' /\ max_range k' = max_range k /\
    exists ps, points k' = points k ++ ps /\ Forall2 (describes c) found ps.
Proof.
  intros W found. induction found as [|i found IH]; intros k H.
  - exists k. split; [reflexivity|]. split; [reflexivity|]. exists []. rewrite app_nil_r. split; [reflexivity|constructor].
  - inversion H as [|? ? [Hi Pi] Hf]; subst. cbn [fold_left]. destruct (add_cell_spec c k i W Hi Pi) as [p [-> Hp]].
    destruct (IH (add_point k p) Hf) as [k' [E [M [ps [Eps F]]]]]. exists k'. split; [exact E|]. split; [exact M|].
    exists (p :: ps). cbn [add_point points] in Eps. rewrite <- app_assoc in Eps. split; [exact Eps|constructor; assumption].
Qed.
Lemma to_cloud_spec c found : wf c -> ranges_ok c -> Forall (fun i => in_cube c i /\ 0 < at_cell c i) found ->
  exists k, to_cloud c found = Ok k /\ Forall2 (describes c) found (points k).
Proof.
  intros W [r [Hr Pr]] H. unfold to_cloud.
  assert (N : range_bins c <> []) by (intro E; rewrite E in Hr; destruct Hr).
  destruct (list_max_some _ N) as [m Em]. rewrite Em. cbn [bind]. apply list_max_spec in Em. destruct Em as [_ Em].
  specialize (Em r Hr). unfold make_cloud. assert (E : Rltb m 0 = false) by (apply Rltb_false; lra). rewrite E.
  destruct (to_cloud_fold c W found (mkCloud m []) H) as [k' [E' [_ [ps [Eps F]]]]]. exists k'. split; [exact E'|].
  cbn [points app] in Eps. rewrite Eps. exact F.
Qed.

(** *** Threshold detection *)
Definition level (t : threshold) (c : cube) (mx mn : R) (i : nat * nat * nat) : R :=
  if normalize t && Rltb 0 mx then (at_cell c i - mn) / mx else at_cell c i.
Lemma cube_data_spec t c mx mn : is_max c mx -> is_min c mn ->
  exists v, cube_data t c = Ok v /\ forall i, v i = level t c mx mn i.
Proof.
  intros Hm Hn. unfold cube_data. rewrite (cells_max_of c mx Hm), (cells_min_of c mn Hn). cbn [bind]. eexists. split; [reflexivity|].
  intro i. unfold level. destruct (normalize t && Rltb 0 mx); reflexivity.
Qed.
Lemma level_mono t c mx mn i j : at_cell c i <= at_cell c j <-> level t c mx mn i <= level t c mx mn j.
Proof.
  unfold level. destruct (normalize t); cbn [andb]; [|tauto]. destruct (Rltb 0 mx) eqn:E; [|tauto].
  apply Rltb_true in E. unfold Rdiv. assert (0 < / mx) by (apply Rinv_0_lt_compat, E). split; intro H'.
  - apply Rmult_le_compat_r; lra.
  - apply Rmult_le_reg_r in H'; lra.
Qed.
Lemma is_peak_spec t c mx mn v i : in_cube c i -> (forall i, v i = level t c mx mn i) ->
  (is_peak c v i = true <-> forall j, in_cube c j -> adjacent i j -> at_cell c j <= at_cell c i).
Proof.
  destruct i as [[a d] r]. intros Hi Hv. unfold is_peak.
  destruct (list_max_some (map v (neighbours c (a, d, r)))) as [m Em]; [discriminate|]. rewrite Em.
  apply list_max_spec in Em. destruct Em as [Min Mmax].
  assert (Hself : v (a, d, r) <= m) by (apply Mmax; left; reflexivity). split.
  - intro H. destruct (Req_EM_T m (v (a, d, r))) as [E|]; [|discriminate]. intros [[a' d'] r'] Hj Hadj.
    apply (level_mono t c mx mn). rewrite <- !Hv, <- E. apply Mmax, in_map. cbn [neighbours].
    destruct Hi as [Ha [Hd Hr]], Hj as [Ha' [Hd' Hr']]. unfold adjacent in Hadj.
    destruct Hadj as [[E1 [E2 [E3|E3]]]|[[E1 [E2 [E3|E3]]]|[E1 [E2 [E3|E3]]]]]; subst; cbn [pred In].
    + do 2 right. left. apply Nat.ltb_lt in Ha'. rewrite Ha'. reflexivity.
    + auto.
    + do 4 right. left. apply Nat.ltb_lt in Hd'. rewrite Hd'. reflexivity.
    + auto 6.
    + do 6 right. left. apply Nat.ltb_lt in Hr'. rewrite Hr'. reflexivity.
    + auto 8.
  - intro H. destruct (Req_EM_T m (v (a, d, r))) as [|NE]; [reflexivity|]. exfalso. apply NE. apply Rle_antisym; [|exact Hself].
    apply in_map_iff in Min. destruct Min as [j [<- Hj]]. rewrite !Hv. apply level_mono.
    destruct Hi as [Ha [Hd Hr]]. cbn [neighbours In] in Hj.
    destruct Hj as [<-|[<-|[<-|[<-|[<-|[<-|[<-|[]]]]]]]]; try lra.
    + destruct a as [|a]; [cbn [pred]; lra|]. apply H; cbn; [lia|]. left. auto.
    + destruct (S a <? na c)%nat eqn:E; [|lra]. apply Nat.ltb_lt in E. apply H; cbn; [lia|]. left. auto.
    + destruct d as [|d]; [cbn [pred]; lra|]. apply H; cbn; [lia|]. right. left. auto.
    + destruct (S d <? nd c)%nat eqn:E; [|lra]. apply Nat.ltb_lt in E. apply H; cbn; [lia|]. right. left. auto.
    + destruct r as [|r]; [cbn [pred]; lra|]. apply H; cbn; [lia|]. right. right. auto.
    + destruct (S r <? nr c)%nat eqn:E; [|lra]. apply Nat.ltb_lt in E. apply H; cbn; [lia|]. right. right. auto.
Qed.
Lemma threshold_cells_spec t c mx mn : is_max c mx -> is_min c mn ->
  exists found, threshold_cells t c = Ok found /\ NoDup found /\
    forall i, In i found <-> in_cube c i /\ min_power t <= level t c mx mn i /\
      (peak_detection t = true -> forall j, in_cube c j -> adjacent i j -> at_cell c j <= at_cell c i).
Proof.
  intros Hm Hn. unfold threshold_cells. destruct (cube_data_spec t c mx mn Hm Hn) as [v [-> Hv]]. cbn [bind].
  eexists. split; [reflexivity|]. split; [apply NoDup_filter, cells_nodup|]. intro i. rewrite filter_In, in_cells, andb_true_iff, Rleb_true, Hv.
  split.
  - intros [Hi [Hp Hl]]. split; [exact Hi|]. split; [exact Hl|]. intro P. rewrite P in Hp. cbn [negb orb] in Hp.
    apply (is_peak_spec t c mx mn v i Hi Hv), Hp.
  - intros [Hi [Hl Hp]]. split; [exact Hi|]. split; [|exact Hl]. destruct (peak_detection t); [|reflexivity]. cbn [negb orb].
    apply (is_peak_spec t c mx mn v i Hi Hv), Hp. reflexivity.
Qed.

(** *** Strongest cell *)
Lemma argmax_fold c l : forall x, let b := fold_left (fun b i => if Rltb (at_cell c b) (at_cell c i) then i else b) l x in
  (b = x \/ In b l) /\ at_cell c x <= at_cell c b /\ forall y, In y l -> at_cell c y <= at_cell c b.
Proof.
  induction l as [|y l IH]; intro x; cbn [fold_left].
  - split; [left; reflexivity|]. split; [lra|]. intros ? [].
  - destruct (Rltb (at_cell c x) (at_cell c y)) eqn:E; [apply Rltb_true in E|apply Rltb_false in E].
    + destruct (IH y) as [H1 [H2 H3]]. split; [|split].
      * destruct H1 as [->|H1]; [right; left; reflexivity|right; right; exact H1].
      * lra.
      * intros z [<-|Hz]; [exact H2|apply H3, Hz].
    + destruct (IH x) as [H1 [H2 H3]]. split; [|split].
      * destruct H1 as [->|H1]; [left; reflexivity|right; right; exact H1].
      * exact H2.
      * intros z [<-|Hz]; [lra|apply H3, Hz].
Qed.
Lemma argmax_ok c : not_empty c -> exists i, argmax c = Ok i /\ in_cube c i /\ is_max c (at_cell c i).
Proof.
  intro N. apply cells_not_empty in N. unfold argmax. destruct (cells c) as [|x l] eqn:E; [contradiction|].
  destruct (argmax_fold c l x) as [H1 [H2 H3]]. eexists. split; [reflexivity|]. set (b := fold_left _ l x) in *.
  assert (Hb : in_cube c b) by (apply in_cells; rewrite E; destruct H1 as [->|H1]; [left; reflexivity|right; exact H1]).
  split; [exact Hb|]. split; [exists b; auto|]. intros j Hj. apply in_cells in Hj. rewrite E in Hj. destruct Hj as [<-|Hj]; auto.
Qed.

(** *** Sums *)
Lemma sumn_ext n f g : (forall k, (k < n)%nat -> f k = g k) -> sumn n f = sumn n g.
Proof. induction n as [|n IH]; intro H; [reflexivity|]. cbn. rewrite IH, H; auto. Qed.
Lemma sumn_zero n : sumn n (fun _ => 0) = 0.
Proof. induction n; cbn; lra. Qed.
Lemma sumn_add n f g : sumn n (fun k => f k + g k) = sumn n f + sumn n g.
Proof. induction n as [|n IH]; cbn; [lra|]. rewrite IH. ring. Qed.
Lemma sumn_scale n k f : sumn n (fun x => k * f x) = k * sumn n f.
Proof. induction n as [|n IH]; cbn; [ring|]. rewrite IH. ring. Qed.
Lemma sumn_swap n m f : sumn n (fun i => sumn m (fun j => f i j)) = sumn m (fun j => sumn n (fun i => f i j)).
Proof.
  induction n as [|n IH]; cbn; [rewrite sumn_zero; reflexivity|]. rewrite IH. rewrite <- sumn_add. reflexivity.
Qed.
Lemma sumn_single n k v : sumn n (fun i => if (i =? k)%nat then v else 0) = if (k <? n)%nat then v else 0.
Proof.
  induction n as [|n IH]; [reflexivity|]. cbn [sumn]. rewrite IH.
  destruct (Nat.eqb_spec n k), (Nat.ltb_spec k n), (Nat.ltb_spec k (S n)); try lia; lra.
Qed.
(** Sum over window offsets as sum over positions *)
Lemma sumn_reindex W n s (g : nat -> nat -> R) :
  sumn W (fun p => if ((p <=? s) && (s - p <? n))%nat then g p (s - p)%nat else 0)
  = sumn n (fun m => if ((m <=? s) && (s - m <? W))%nat then g (s - m)%nat m else 0).
Proof.
  assert (E1 : forall p, (if ((p <=? s) && (s - p <? n))%nat then g p (s - p)%nat else 0)
     = sumn n (fun m => if (m + p =? s)%nat then g p m else 0)).
  { intro p. destruct (Nat.leb_spec p s) as [H|H]; cbn [andb].
    - rewrite (sumn_ext n (fun m => if (m + p =? s)%nat then g p m else 0) (fun m => if (m =? s - p)%nat then g p (s - p)%nat else 0)).
      + rewrite sumn_single. reflexivity.
      + intros m _. destruct (Nat.eqb_spec (m + p) s), (Nat.eqb_spec m (s - p)); try lia; [f_equal; lia|reflexivity].
    - rewrite (sumn_ext n _ (fun _ => 0)); [rewrite sumn_zero; reflexivity|].
      intros m _. destruct (Nat.eqb_spec (m + p) s); [lia|reflexivity]. }
  rewrite (sumn_ext W _ _ (fun p _ => E1 p)). rewrite sumn_swap. apply sumn_ext. intros m _.
  destruct (Nat.leb_spec m s) as [H|H]; cbn [andb].
  - rewrite (sumn_ext W _ (fun p => if (p =? s - m)%nat then g (s - m)%nat m else 0)).
    + apply sumn_single.
    + intros p _. destruct (Nat.eqb_spec (m + p) s), (Nat.eqb_spec p (s - m)); try lia; [f_equal; lia|reflexivity].
  - rewrite (sumn_ext W _ (fun _ => 0)); [apply sumn_zero|]. intros p _. destruct (Nat.eqb_spec (m + p) s); [lia|reflexivity].
Qed.
Lemma sum_cons x l : sum_list (x :: l) = x + sum_list l.
Proof. reflexivity. Qed.
Lemma sum_list_app l1 l2 : sum_list (l1 ++ l2) = sum_list l1 + sum_list l2.
Proof. induction l1 as [|x l IH]; [cbn [app]; change (sum_list []) with 0; lra|]. rewrite <- app_comm_cons, !sum_cons, IH. lra. Qed.
Lemma sumn_list n f : sumn n f = sum_list (map f (seq 0 n)).
Proof.
  induction n as [|n IH]; [reflexivity|]. rewrite seq_S, map_app, sum_list_app. cbn [sumn]. rewrite IH. cbn [map]. rewrite sum_cons. change (sum_list []) with 0. rewrite Nat.add_0_l. lra.
Qed.
Lemma sum_filter {A} (p : A -> bool) (f : A -> R) l : sum_list (map f (filter p l)) = sum_list (map (fun x => if p x then f x else 0) l).
Proof. induction l as [|x l IH]; [reflexivity|]. cbn [filter map]. rewrite sum_cons. destruct (p x); cbn [map]; [rewrite sum_cons|]; rewrite IH; lra. Qed.
Lemma sum_prod (f : nat -> nat -> R) : forall n l2, sum_list (map (fun e => f (fst e) (snd e)) (list_prod (seq 0 n) l2))
  = sum_list (map (fun i => sum_list (map (fun j => f i j) l2)) (seq 0 n)).
Proof.
  intros n l2. generalize (seq 0 n) as l1. induction l1 as [|x l IH]; [reflexivity|]. cbn [list_prod map].
  rewrite map_app, sum_list_app, IH, map_map. cbn. reflexivity.
Qed.

(** *** Convolution as sum over training cells *)
Lemma half_window a b : ((2 * a + 2 * b + 1 - 1) / 2 = a + b)%nat.
Proof. replace (2 * a + 2 * b + 1 - 1)%nat with ((a + b) * 2)%nat by lia. apply Nat.div_mul. lia. Qed.
Lemma convolve_training f n m x d r : (0 < fst (training f))%nat -> (0 < snd (training f))%nat ->
  (d < n)%nat -> (r < m)%nat ->
  convolve f n m x d r = sum_list (map (fun e => x (fst e) (snd e)) (training_cells f n m d r)).
Proof.
  intros T0 T1 Hd Hr. unfold training_cells. rewrite sum_filter.
  rewrite (sum_prod (fun i j => if trains f d r i j then x i j else 0)).
  rewrite <- sumn_list. unfold convolve. unfold window_x, window_y. rewrite !half_window.
  set (cx := (fst (training f) + fst (guard f))%nat). set (cy := (snd (training f) + snd (guard f))%nat).
  set (Wx := (2 * fst (training f) + 2 * fst (guard f) + 1)%nat). set (Wy := (2 * snd (training f) + 2 * snd (guard f) + 1)%nat).
  rewrite (sumn_ext Wx _ (fun p => if ((p <=? d + cx) && (d + cx - p <? n))%nat
     then (fun p i => sumn Wy (fun q => if ((q <=? r + cy) && (r + cy - q <? m))%nat then (fun q j => kernel f p q * x i j) q (r + cy - q)%nat else 0)) p (d + cx - p)%nat
     else 0)).
  - rewrite (sumn_reindex Wx n (d + cx) (fun p i => sumn Wy (fun q => if ((q <=? r + cy) && (r + cy - q <? m))%nat then kernel f p q * x i (r + cy - q)%nat else 0))).
    apply sumn_ext. intros i Hi.
    rewrite <- sumn_list.
    destruct ((i <=? d + cx) && (d + cx - i <? Wx))%nat eqn:E.
    + rewrite (sumn_reindex Wy m (r + cy) (fun q j => kernel f (d + cx - i) q * x i j)).
      apply sumn_ext. intros j Hj.
      apply andb_true_iff in E. destruct E as [E1 E2]. apply Nat.leb_le in E1. apply Nat.ltb_lt in E2.
      assert (B0 : within cx d i = true) by (unfold within; apply andb_true_iff; split; apply Nat.leb_le; unfold Wx, cx in *; lia).
      assert (B1 : ((j <=? r + cy) && (r + cy - j <? Wy))%nat = within cy r j)
        by (unfold within; destruct (Nat.leb_spec j (r + cy)), (Nat.ltb_spec (r + cy - j) Wy), (Nat.leb_spec r (j + cy));
            cbn [andb]; try reflexivity; exfalso; unfold Wy, cy in *; lia).
      unfold trains. fold cx cy. rewrite B0, B1. cbn [andb].
      destruct (within cy r j) eqn:B2; cbn [andb]; [|reflexivity].
      unfold within in B2. apply andb_true_iff in B2. destruct B2 as [C1 C2]. apply Nat.leb_le in C1, C2.
      unfold kernel, window_x, window_y. fold Wx Wy.
      assert (B3 : ((fst (training f) <=? d + cx - i) && (d + cx - i <? Wx - fst (training f)))%nat = within (fst (guard f)) d i)
        by (unfold within; destruct (Nat.leb_spec (fst (training f)) (d + cx - i)), (Nat.ltb_spec (d + cx - i) (Wx - fst (training f))),
              (Nat.leb_spec d (i + fst (guard f))), (Nat.leb_spec i (d + fst (guard f)));
            cbn [andb]; try reflexivity; exfalso; unfold Wx, cx in *; lia).
      assert (B4 : ((snd (training f) <=? r + cy - j) && (r + cy - j <? Wy - snd (training f)))%nat = within (snd (guard f)) r j)
        by (unfold within; destruct (Nat.leb_spec (snd (training f)) (r + cy - j)), (Nat.ltb_spec (r + cy - j) (Wy - snd (training f))),
              (Nat.leb_spec r (j + snd (guard f))), (Nat.leb_spec j (r + snd (guard f)));
            cbn [andb]; try reflexivity; exfalso; unfold Wy, cy in *; lia).
      rewrite <- andb_assoc, B3, B4. destruct (within (fst (guard f)) d i && within (snd (guard f)) r j); cbn [negb]; ring.
    + transitivity (sumn m (fun _ => 0)); [symmetry; apply sumn_zero|]. apply sumn_ext. intros j Hj. unfold trains, within. fold cx.
      apply andb_false_iff in E. destruct E as [E|E]; [apply Nat.leb_gt in E|apply Nat.ltb_ge in E].
      * destruct (Nat.leb_spec i (d + cx)); [lia|]. rewrite andb_false_r. reflexivity.
      * destruct (Nat.leb_spec d (i + cx)); [exfalso; unfold Wx, cx in *; lia|]. reflexivity.
  - intros p Hp. unfold padded. destruct ((p <=? d + cx) && (d + cx - p <? n))%nat; cbn [andb].
    + apply sumn_ext. intros q Hq. destruct ((q <=? r + cy) && (r + cy - q <? m))%nat; [reflexivity|ring].
    + transitivity (sumn Wy (fun _ => 0)); [|apply sumn_zero]. apply sumn_ext. intros q Hq. ring.
Qed.
Lemma sum_ones {A} (l : list A) : sum_list (map (fun _ => 1) l) = INR (length l).
Proof. induction l as [|x l IH]; [reflexivity|]. cbn [map length]. rewrite S_INR, sum_cons, IH. lra. Qed.
