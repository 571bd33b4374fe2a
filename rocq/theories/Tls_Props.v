(** Properties of tiles and batch jobs *)
From Coq Require Import Ascii String List Arith ZArith Bool Lia.
Import ListNotations.
From Verif Require Import Base BaseLemmas Tls_Model Tls_Spec Tls_Proofs.
Local Open Scope nat_scope.

(** Grids without columns or rows are refused; otherwise all figures get a tile of the same size, in a grid with the asked number of columns
    and rows if it is large enough, and otherwise in the smallest one of about the same shape *)
Theorem C131_grid : forall cols rows screen offsets n,
  ((cols <= 0 \/ rows <= 0)%Z -> tile_figures cols rows screen offsets n = Raise AssertionError) /\
  ((0 < cols)%Z -> (0 < rows)%Z -> exists l c r, tile_figures cols rows screen offsets n = Ok l /\ length l = n /\
     (forall t, In t l -> width t = (width screen / c)%Z /\ height t = (height screen / r)%Z) /\
     (cols <= c)%Z /\ (rows <= r)%Z /\ (Z.of_nat n <= c * r)%Z /\ (2 * Z.abs (r * cols - c * rows) <= cols)%Z /\
     ((Z.of_nat n <= cols * rows)%Z -> c = cols /\ r = rows) /\
     (c <> cols -> exists r', ((c - 1) * r' < Z.of_nat n)%Z /\ (2 * Z.abs (r' * cols - (c - 1) * rows) <= cols)%Z)).
Proof.
  intros cols rows screen offsets n. split.
  - intro H. unfold tile_figures. destruct (Z.ltb_spec 0 cols); destruct (Z.ltb_spec 0 rows); try reflexivity. lia.
  - intros H1 H2. unfold tile_figures. rewrite (proj2 (Z.ltb_lt _ _) H1), (proj2 (Z.ltb_lt _ _) H2). cbn [negb orb]. destruct (grown n (Z.to_nat cols) (Z.to_nat rows) ltac:(lia) ltac:(lia)) as (c & E & A & B & D). rewrite E. cbn [fst snd].
    assert (K : forall a b, 0 < b -> (2 * Z.abs (Z.of_nat (rounded a b) * Z.of_nat b - Z.of_nat a) <= Z.of_nat b)%Z).
    { intros a b Hb. pose proof (rounded_cases a b Hb) as (Q1 & Q2 & Q3). assert (Z.of_nat a = Z.of_nat b * Z.of_nat (a / b) + Z.of_nat (a mod b))%Z by lia. destruct Q3 as [[-> Q3]|[-> Q3]]; [|rewrite Nat2Z.inj_add]; nia. }
    exists (map (fun i => Rect (Z.of_nat (i mod c) * (width screen / Z.of_nat c + fst offsets) + (left_of screen + fst offsets)) (Z.of_nat (i / c) * (height screen / Z.of_nat (rounded (c * Z.to_nat rows) (Z.to_nat cols)) + snd offsets) + (top_of screen + snd offsets)) (width screen / Z.of_nat c) (height screen / Z.of_nat (rounded (c * Z.to_nat rows) (Z.to_nat cols)))) (seq 0 n)), (Z.of_nat c), (Z.of_nat (rounded (c * Z.to_nat rows) (Z.to_nat cols))).
    split; [reflexivity|]. split; [rewrite map_length, seq_length; reflexivity|]. split.
    { intros t Ht. apply in_map_iff in Ht. destruct Ht as (i & <- & _). split; reflexivity. }
    assert (M : Z.to_nat rows <= rounded (c * Z.to_nat rows) (Z.to_nat cols)). { pose proof (rounded_mono (Z.to_nat cols * Z.to_nat rows) (c * Z.to_nat rows) (Z.to_nat cols) ltac:(lia) ltac:(nia)) as Q. rewrite rounded_exact in Q by lia. exact Q. }
    split; [lia|]. split; [lia|]. split; [rewrite <- Nat2Z.inj_mul; lia|]. split; [|split].
    + pose proof (K (c * Z.to_nat rows) (Z.to_nat cols) ltac:(lia)) as Q. rewrite Nat2Z.inj_mul, !Z2Nat.id in Q by lia. exact Q.
    + intro Hn. assert (C : c = Z.to_nat cols). { destruct D as [->|[D1 D2]]; [reflexivity|]. pose proof (rounded_mono (Z.to_nat cols * Z.to_nat rows) ((c - 1) * Z.to_nat rows) (Z.to_nat cols) ltac:(lia) ltac:(nia)) as Q. rewrite rounded_exact in Q by lia. nia. } subst c. rewrite rounded_exact by lia. lia.
    + intro Hc. destruct D as [->|[D1 D2]]; [lia|]. exists (Z.of_nat (rounded ((c - 1) * Z.to_nat rows) (Z.to_nat cols))). pose proof (K ((c - 1) * Z.to_nat rows) (Z.to_nat cols) ltac:(lia)) as Q. rewrite Nat2Z.inj_mul, !Z2Nat.id in Q by lia. replace (Z.of_nat (c - 1)) with (Z.of_nat c - 1)%Z in Q by lia. split; [|exact Q]. replace (Z.of_nat c - 1)%Z with (Z.of_nat (c - 1)) by lia. rewrite <- Nat2Z.inj_mul. lia.
Qed.
Print Assumptions C131_grid.
Example C131_grid_met : tile_figures 3 2 (Rect 0 0 1200 800) (0, 0)%Z 7 = Ok (map (fun i => Rect (Z.of_nat (i mod 4) * 300) (Z.of_nat (i / 4) * 266) 300 266) (seq 0 7)).
Proof. vm_compute. reflexivity. Qed.
(** Without offsets all figures are on the screen and no two overlap; they do not overlap with offsets either *)
Theorem C131_figures_are_apart : forall cols rows screen offsets n l, (0 <= width screen)%Z -> (0 <= height screen)%Z -> (0 <= fst offsets)%Z -> (0 <= snd offsets)%Z ->
  tile_figures cols rows screen offsets n = Ok l ->
  (forall i j s t, i <> j -> nth_error l i = Some s -> nth_error l j = Some t -> apart s t) /\
  (offsets = (0, 0)%Z -> forall t, In t l -> inside t screen).
Proof.
  intros cols rows screen offsets n l HW HH O1 O2. unfold tile_figures. destruct (Z.ltb_spec 0 cols) as [H1|]; [|discriminate]. destruct (Z.ltb_spec 0 rows) as [H2|]; [|discriminate]. cbn [negb orb]. destruct (grown n (Z.to_nat cols) (Z.to_nat rows) ltac:(lia) ltac:(lia)) as (c & E & A & B & _). rewrite E. cbn [fst snd]. intro L.
  assert (inj : forall a b : list rect, Ok a = Ok b -> a = b) by congruence. apply inj in L. clear inj.
  remember (rounded (c * Z.to_nat rows) (Z.to_nat cols)) as r eqn:Er. clear Er. assert (Hc : 0 < c) by lia.
  assert (W1 : (0 <= width screen / Z.of_nat c)%Z) by (apply Z.div_pos; lia). split.
  - intros i j s t Hij Hs Ht. assert (Hi : i < n) by (apply nth_error_Some_length in Hs || (assert (nth_error l i <> None) as Q by congruence; apply nth_error_Some in Q; rewrite <- L, map_length, seq_length in Q; exact Q)).
    assert (Hj : j < n) by (assert (nth_error l j <> None) as Q by congruence; apply nth_error_Some in Q; rewrite <- L, map_length, seq_length in Q; exact Q).
    assert (G : forall k, k < n -> nth_error (seq 0 n) k = Some k). { intros k Hk. rewrite (nth_error_nth' _ 0) by (rewrite seq_length; exact Hk). rewrite seq_nth by exact Hk. reflexivity. }
    rewrite <- L in Hs, Ht. rewrite (map_nth_error _ _ _ (G i Hi)) in Hs. rewrite (map_nth_error _ _ _ (G j Hj)) in Ht. assert (some : forall a b : rect, Some a = Some b -> a = b) by congruence. apply some in Hs. apply some in Ht. subst s t. unfold apart. cbn [left_of top_of width height].
    assert (R1 : 0 < r) by nia. assert (V1 : (0 <= height screen / Z.of_nat r)%Z) by (apply Z.div_pos; lia).
    remember (width screen / Z.of_nat c)%Z as w. remember (height screen / Z.of_nat r)%Z as h.
    pose proof (Nat.div_mod i c ltac:(lia)) as Di. pose proof (Nat.div_mod j c ltac:(lia)) as Dj. remember (i mod c) as im. remember (j mod c) as jm. remember (i / c) as iq. remember (j / c) as jq.
    destruct (Nat.lt_trichotomy im jm) as [T|[T|T]]; [left; nia| |right; left; nia]. destruct (Nat.lt_trichotomy iq jq) as [U|[U|U]]; [right; right; left; nia| |right; right; right; nia]. exfalso. apply Hij. rewrite Di, Dj, T, U. reflexivity.
  - intros O t Ht. rewrite <- L in Ht. apply in_map_iff in Ht. destruct Ht as (i & <- & Hi). apply in_seq in Hi. rewrite O. unfold inside. cbn [left_of top_of width height fst snd].
    assert (R1 : 0 < r) by nia. assert (V1 : (0 <= height screen / Z.of_nat r)%Z) by (apply Z.div_pos; lia).
    pose proof (Z.mul_div_le (width screen) (Z.of_nat c) ltac:(lia)) as MW. pose proof (Z.mul_div_le (height screen) (Z.of_nat r) ltac:(lia)) as MH.
    remember (width screen / Z.of_nat c)%Z as w. remember (height screen / Z.of_nat r)%Z as h.
    pose proof (Nat.mod_upper_bound i c ltac:(lia)) as Mi. assert (Qi : i / c < r) by (apply Nat.div_lt_upper_bound; lia). remember (i mod c) as im. remember (i / c) as iq. repeat split; nia.
Qed.
Print Assumptions C131_figures_are_apart.
Example C131_figures_are_apart_met : exists l, tile_figures 2 2 (Rect 10 20 100 90) (0, 0)%Z 3 = Ok l /\ length l = 3.
Proof. eexists. split; [vm_compute; reflexivity|reflexivity]. Qed.
(** With an offset to the right figures leave the screen if its width is a multiple of the number of columns *)
Theorem C131_offsets_refuted : forall cols rows screen ox oy n k, (0 < cols)%Z -> (0 < rows)%Z -> (0 < ox)%Z -> width screen = (cols * k)%Z -> (cols <= Z.of_nat n <= cols * rows)%Z ->
  exists l t, tile_figures cols rows screen (ox, oy) n = Ok l /\ In t l /\ (left_of t + width t)%Z = (left_of screen + width screen + cols * ox)%Z /\ ~ inside t screen.
Proof.
  intros cols rows screen ox oy n k H1 H2 HO HW HN. unfold tile_figures. rewrite (proj2 (Z.ltb_lt _ _) H1), (proj2 (Z.ltb_lt _ _) H2). cbn [negb orb]. destruct (grown n (Z.to_nat cols) (Z.to_nat rows) ltac:(lia) ltac:(lia)) as (c & E & A & B & D). rewrite E. cbn [fst snd].
  assert (C : c = Z.to_nat cols). { destruct D as [->|[D1 D2]]; [reflexivity|]. pose proof (rounded_mono (Z.to_nat cols * Z.to_nat rows) ((c - 1) * Z.to_nat rows) (Z.to_nat cols) ltac:(lia) ltac:(nia)) as Q. rewrite rounded_exact in Q by lia. nia. } subst c.
  eexists. eexists. split; [reflexivity|]. split; [apply in_map; apply (proj2 (in_seq n 0 (Z.to_nat cols - 1))); lia|]. cbn [left_of width]. rewrite Nat.mod_small by lia.
  assert (W : (width screen / Z.of_nat (Z.to_nat cols) = k)%Z) by (rewrite Z2Nat.id, HW by lia; rewrite Z.mul_comm; apply Z.div_mul; lia). rewrite W. replace (Z.of_nat (Z.to_nat cols - 1)) with (cols - 1)%Z by lia.
  assert (G : ((cols - 1) * (k + ox) + (left_of screen + ox) + k = left_of screen + width screen + cols * ox)%Z) by (rewrite HW; ring). split; [exact G|]. unfold inside. cbn [left_of width]. nia.
Qed.
Print Assumptions C131_offsets_refuted.
Example C131_offsets_refuted_met : (3 <= Z.of_nat 5 <= 3 * 2)%Z /\ (1200 = 3 * 400)%Z.
Proof. lia. Qed.

(** Batch jobs have the asked number of nodes and run the script, under its name if it has no dollar signs; without sbatch nothing is
    submitted unless checks are skipped *)
Theorem C132_jobs : forall skip found script nodes, no_dollar nodes ->
  (skip = false -> found = false -> submitted skip found script nodes = None) /\
  ((skip = true \/ found = true) -> exists name, submitted skip found script nodes = Some (job name nodes script) /\ (no_dollar script -> name = script)).
Proof.
  intros skip found script nodes H. split.
  - intros -> ->. reflexivity.
  - intro S1. exists (replace "$SCRIPT" script (replace "$NUM_NODES" nodes script)). split.
    + unfold submitted. destruct S1 as [->| ->]; cbn [negb andb]; [|rewrite andb_false_r]; f_equal; apply batch_written; exact H.
    + intro N. rewrite (replace_end "$NUM_NODES" nodes script) by (apply clean_no_dollar; exact N). apply replace_end. apply clean_no_dollar. exact N.
Qed.
Print Assumptions C132_jobs.
Example C132_jobs_met : no_dollar "4" /\ no_dollar "run me.py".
Proof. cbn. repeat split; discriminate. Qed.
(** The keys of the template are replaced in the names of jobs, too *)
Theorem C132_names_refuted : forall a b nodes, no_dollar a -> no_dollar b -> no_dollar nodes ->
  submitted true true (a ++ "$NUM_NODES" ++ b) nodes = Some (job (a ++ nodes ++ b) nodes (a ++ "$NUM_NODES" ++ b)) /\
  submitted true true (a ++ "$SCRIPT" ++ b) nodes = Some (job (a ++ (a ++ "$SCRIPT" ++ b) ++ b) nodes (a ++ "$SCRIPT" ++ b)) /\
  submitted true true (a ++ "$JOB_NAME" ++ b) nodes = Some (job (a ++ "$JOB_NAME" ++ b) nodes (a ++ "$JOB_NAME" ++ b)).
Proof.
  intros a b nodes Ha Hb Hn. assert (CL : forall k v s r, no_dollar s -> replace (String "$" k) v (s ++ r) = (s ++ replace (String "$" k) v r)%string) by (intros; apply replace_clean; apply clean_no_dollar; assumption).
  assert (EN : forall k v s, no_dollar s -> replace (String "$" k) v s = s) by (intros; apply replace_end; apply clean_no_dollar; assumption).
  unfold submitted. cbn [negb andb]. rewrite !batch_written by exact Hn. split; [|split]; do 2 f_equal.
  - rewrite (CL _ _ a), replace_key, (EN _ _ b) by assumption. rewrite (CL _ _ a), (CL _ _ nodes), (EN _ _ b) by assumption. reflexivity.
  - rewrite (CL _ _ a) by assumption. rewrite (replace_clean "$NUM_NODES" nodes "$SCRIPT") by reflexivity. rewrite (EN _ _ b) by assumption. rewrite (CL _ _ a), replace_key, (EN _ _ b) by assumption. reflexivity.
  - rewrite (CL _ _ a) by assumption. rewrite (replace_clean "$NUM_NODES" nodes "$JOB_NAME") by reflexivity. rewrite (EN _ _ b) by assumption. rewrite (CL _ _ a) by assumption. rewrite (replace_clean "$SCRIPT" _ "$JOB_NAME") by reflexivity. rewrite (EN _ _ b) by assumption. reflexivity.
Qed.
Print Assumptions C132_names_refuted.
Example C132_names_refuted_met : no_dollar "cost" /\ no_dollar ".py" /\ no_dollar "2".
Proof. cbn. repeat split; discriminate. Qed.
