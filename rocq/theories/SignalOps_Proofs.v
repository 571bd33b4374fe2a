(** Proofs about slicing, appending and superimposing signals (C40 - C42). *)
From Coq Require Import List Arith Bool Lia ZArith Sorted.
From Verif Require Import Base BaseLemmas Signal_Model Signal_Spec Signal_Proofs.
Import ListNotations.

Lemma mapM_Forall2 {X Y} (f : X -> result Y) (R : X -> Y -> Prop) l :
  (forall x, In x l -> exists y, f x = Ok y /\ R x y) -> exists ys, mapM f l = Ok ys /\ Forall2 R l ys.
Proof.
  induction l as [|x l IH]; intros H; [exists []; split; [auto|constructor]|].
  destruct (H x (or_introl eq_refl)) as (y & Ey & Ry). destruct IH as (ys & Eys & Rys); [intros; apply H; right; auto|].
  exists (y :: ys). cbn. rewrite Ey. cbn. rewrite Eys. cbn. auto.
Qed.
Lemma mapM_Forall2_inv {X Y} (f : X -> result Y) l : forall ys, mapM f l = Ok ys -> Forall2 (fun x y => f x = Ok y) l ys.
Proof.
  induction l as [|x l IH]; cbn; intros ys H; [injection H as <-; constructor|].
  destruct (f x) eqn:E; [|discriminate]. cbn in H. destruct (mapM f l) eqn:El; [|discriminate]. cbn in H. injection H as <-.
  constructor; auto.
Qed.

Section S.
Variable A : Type.
Variable zero : A.
Variable add : A -> A -> A.
Variable is_zero : A -> bool.
Hypothesis L : laws zero add is_zero.
Notation col := (list A).
Notation block := (block A).
Notation signal := (signal A).
Notation zcol := (zcol A zero).
Notation addcol := (addcol A add).

Lemma addcol_zl ns (c : col) : length c = ns -> addcol (zcol ns) c = c.
Proof.
  revert ns; induction c as [|x c IH]; intros [|ns] H; try discriminate; [reflexivity|]. cbn. rewrite (add_zero_l _ _ _ L). f_equal.
  apply IH. now injection H.
Qed.
Lemma addcol_zr ns (c : col) : length c = ns -> addcol c (zcol ns) = c.
Proof.
  revert ns; induction c as [|x c IH]; intros [|ns] H; try discriminate; [reflexivity|]. cbn. rewrite (add_zero_r _ _ _ L). f_equal.
  apply IH. now injection H.
Qed.
Lemma length_addcol ns (c d : col) : length c = ns -> length d = ns -> length (addcol c d) = ns.
Proof. intros. unfold Signal_Model.addcol. rewrite map2_length. lia. Qed.
Lemma length_zcol ns : length (zcol ns) = ns. Proof. apply repeat_length. Qed.

(** * Slicing *)
Lemma nth_error_every step l : 0 < step -> forall k j, nth_error (every A step k l) j = nth_error l (k + j * step).
Proof.
  intros Hs. induction l as [|x l IH]; intros k j; cbn [every].
  - destruct j, (k + _); reflexivity.
  - destruct k as [|k].
    + destruct j as [|j]; [reflexivity|]. cbn [nth_error]. rewrite IH. replace (0 + S j * step) with (S (step - 1 + j * step)) by lia. reflexivity.
    + rewrite IH. reflexivity.
Qed.

Lemma slice_block_spec rows a (stop : Z) step b : 0 < step -> aligned a step b ->
  (slice_block A zero rows (Z.of_nat a) stop step b = [] /\
     forall t, (Z.of_nat (a + t * step) < stop)%Z -> at_block b (a + t * step) = None) \/
  exists b', slice_block A zero rows (Z.of_nat a) stop step b = [b'] /\ k_ns b' = length rows /\
    Forall (fun c => length c = length rows) (k_cols b') /\
    (forall t, k_off b <= a + t * step <-> k_off b' <= t) /\
    (forall t, at_block b' t = if (Z.of_nat (a + t * step) <? stop)%Z then option_map (pick_rows A zero rows) (at_block b (a + t * step)) else None).
Proof.
  intros Hs Hal. unfold slice_block.
  destruct (Z.leb_spec stop (Z.of_nat (k_off b))) as [H1|H1]; cbn [orb].
  { left. split; [auto|]. intros t Ht. apply at_block_None. lia. }
  destruct (Z.leb_spec (Z.of_nat (k_end b)) (Z.of_nat a)) as [H2|H2].
  { left. split; [auto|]. intros t Ht. apply at_block_None. assert (0 <= t * step) by lia. lia. }
  right.
  set (i0 := Z.max (Z.of_nat a - Z.of_nat (k_off b)) 0). set (r := ((i0 + Z.of_nat (k_off b) - Z.of_nat a) mod Z.of_nat step)%Z).
  assert (Hq : exists q : nat, (i0 + r + Z.of_nat (k_off b) = Z.of_nat (a + q * step))%Z /\
                 (Z.of_nat (a + q * step) < Z.of_nat (Nat.max a (k_off b) + step))%Z).
  { set (m := Nat.max a (k_off b)). assert (Hm : (i0 + Z.of_nat (k_off b) = Z.of_nat m)%Z) by (subst i0 m; lia).
    assert (Hr : r = Z.of_nat ((m - a) mod step)).
    { subst r. rewrite Hm. rewrite <- Nat2Z.inj_sub by (subst m; lia). now rewrite Nat2Z.inj_mod. }
    pose proof (Nat.div_mod_eq (m - a) step) as Hd. pose proof (Nat.mod_upper_bound (m - a) step ltac:(lia)) as Hu.
    assert (Hcase : (m - a) mod step = 0 \/ (step = 2 /\ (m - a) mod step = 1)).
    { destruct Hal as [Hal|[Hal|Hal]].
      - left. subst m. rewrite Nat.max_l by lia. rewrite Nat.sub_diag. apply Nat.mod_0_l. lia.
      - destruct step as [|[|[|step]]]; try lia.
      - left. subst m. destruct (Nat.le_gt_cases a (k_off b)); [rewrite Nat.max_r by lia; auto|].
        rewrite Nat.max_l by lia. rewrite Nat.sub_diag. apply Nat.mod_0_l. lia. }
    assert (a <= m) by (subst m; lia).
    destruct Hcase as [Hc|[Hc1 Hc2]].
    - exists ((m - a) / step). rewrite Hc in *. nia.
    - exists (S ((m - a) / step)). rewrite Hc1, Hc2 in *. lia. }
  destruct Hq as (q & Hq1 & Hq2).
  eexists; split; [reflexivity|]. cbn [k_ns k_cols k_off].
  assert (Hdiv : Z.to_nat ((i0 + r + Z.of_nat (k_off b) - Z.of_nat a) / Z.of_nat step) = q).
  { rewrite Hq1. replace (Z.of_nat (a + q * step) - Z.of_nat a)%Z with (Z.of_nat q * Z.of_nat step)%Z by lia.
    rewrite Z.div_mul by lia. apply Nat2Z.id. }
  rewrite Hdiv. clear Hdiv.
  split; [auto|]. split.
  { apply Forall_forall. intros c Hc. apply in_map_iff in Hc as (x & <- & _). unfold pick_rows. now rewrite map_length. }
  split.
  { intros t. split; intros Ht.
    - destruct (Nat.le_gt_cases q t) as [Hqt|Hqt]; [auto|]. exfalso.
      assert (t * step + step <= q * step) by nia. lia.
    - assert (q * step <= t * step) by nia. subst i0. assert (0 <= r)%Z by (subst r; apply Z.mod_pos_bound; lia). lia. }
  intros t. unfold at_block at 1. cbn [k_off k_cols].
  assert (Hr0 : (0 <= r)%Z) by (subst r; apply Z.mod_pos_bound; lia).
  assert (Hoff : k_off b <= a + q * step) by (subst i0; lia).
  destruct (Nat.leb_spec q t) as [Hqt|Hqt].
  - replace t with (q + (t - q)) in * by lia. set (u := t - q) in *. replace (q + u - q) with u by lia.
    rewrite nth_error_map'. unfold stepped. rewrite nth_error_every by auto. cbn [Nat.add]. rewrite nth_error_slice.
    assert (Hmul : (q + u) * step = q * step + u * step) by ring. rewrite Hmul. 
    assert (Hf : Z.to_nat (i0 + r) + k_off b = a + q * step) by (subst i0; lia).
    unfold at_block. destruct (Nat.leb_spec (k_off b) (a + (q * step + u * step))) as [_|?]; [|lia].
    replace (Z.to_nat (i0 + r) + u * step) with (a + (q * step + u * step) - k_off b) by lia.
    destruct (Nat.ltb_spec (u * step) (Z.to_nat (Z.min (stop - Z.of_nat (k_off b)) (Z.of_nat (length (k_cols b)))) - Z.to_nat (i0 + r))) as [Hl|Hl];
      destruct (Z.ltb_spec (Z.of_nat (a + (q * step + u * step))) stop) as [Hl'|Hl'].
    + reflexivity.
    + exfalso. lia.
    + rewrite (proj2 (nth_error_None (k_cols b) _)); [reflexivity|]. lia.
    + reflexivity.
  - assert (at_block b (a + t * step) = None) as ->.
    { apply at_block_None. assert (t * step + step <= q * step) by nia. lia. }
    destruct (_ <? _)%Z; reflexivity.
Qed.

Lemma slice_ordered rows a stop step s : 0 < step -> Forall (aligned a step) s -> forall lo lo', ordered lo s ->
  (forall t, lo <= a + t * step -> lo' <= t) -> ordered lo' (flat_map (slice_block A zero rows (Z.of_nat a) stop step) s).
Proof.
  intros Hs. induction s as [|b s IH]; intros Hal lo lo' Ho Hlo; [exact I|]. inversion Hal as [|? ? Hb Hal']; subst. destruct Ho as [Ho1 Ho2].
  cbn [flat_map]. destruct (slice_block_spec rows a stop step b Hs Hb) as [[E _]|(b' & E & _ & _ & Hoff & Hat)]; rewrite E; cbn [app].
  - apply IH with (lo := k_end b); auto. intros t Ht. apply Hlo. unfold k_end in Ht. lia.
  - cbn [ordered]. split. { apply Hlo. assert (k_off b <= a + k_off b' * step) by (apply Hoff; auto). lia. }
    apply IH with (lo := k_end b); auto. intros t Ht.
    assert (Hge : k_off b' <= t) by (apply Hoff; unfold k_end in Ht; lia).
    destruct (Nat.le_gt_cases (k_end b') t) as [|Hlt]; [auto|]. exfalso.
    assert (Hsome : at_block b' t <> None) by (rewrite at_block_None; lia). apply Hsome. rewrite Hat.
    assert (at_block b (a + t * step) = None) as -> by (apply at_block_None; lia). destruct (_ <? _)%Z; reflexivity.
Qed.
Lemma slice_streams rows a stop step s : 0 < step -> Forall (aligned a step) s ->
  streams_ok (length rows) (flat_map (slice_block A zero rows (Z.of_nat a) stop step) s).
Proof.
  intros Hs. induction s as [|b s IH]; intros Hal; [constructor|]. inversion Hal as [|? ? Hb Hal']; subst. cbn [flat_map].
  destruct (slice_block_spec rows a stop step b Hs Hb) as [[E _]|(b' & E & H1 & H2 & _)]; rewrite E; cbn [app]; [apply IH; auto|].
  constructor; [auto|apply IH; auto].
Qed.
Lemma slice_at rows a stop step s : 0 < step -> Forall (aligned a step) s -> forall t,
  at_blocks (flat_map (slice_block A zero rows (Z.of_nat a) stop step) s) t =
  if (Z.of_nat (a + t * step) <? stop)%Z then option_map (pick_rows A zero rows) (at_blocks s (a + t * step)) else None.
Proof.
  intros Hs. induction s as [|b s IH]; intros Hal t; [cbn; destruct (_ <? _)%Z; reflexivity|]. inversion Hal as [|? ? Hb Hal']; subst. cbn [flat_map].
  destruct (slice_block_spec rows a stop step b Hs Hb) as [[E HN]|(b' & E & _ & _ & _ & Hat)]; rewrite E; cbn [app at_blocks]; rewrite IH by auto.
  - destruct (Z.ltb_spec (Z.of_nat (a + t * step)) stop); [|auto]. now rewrite HN.
  - rewrite Hat. destruct (_ <? _)%Z; [|auto]. destruct (at_block b _); reflexivity.
Qed.

Lemma sp_getitem_blocks s rows start stop step :
  blocks (sp_getitem A zero s rows start stop step) =
  flat_map (slice_block A zero rows (match start with Some x => x | None => 0%Z end) (match stop with Some x => x | None => Z.of_nat (sp_n s) end) step) s.
Proof.
  unfold sp_getitem. set (sel := flat_map _ _). destruct sel as [|b [|b' l]]; [reflexivity| |reflexivity].
  destruct (Nat.eqb_spec (k_off b) 0) as [E|E]; [|reflexivity]. cbn [blocks d_ns d_cols]. destruct b as [o n c]. cbn in *. now subst.
Qed.
Lemma getitem_sparse_spec s rows (start stop : option nat) step : 0 < step -> ordered 0 s ->
  let a := match start with Some x => x | None => 0 end in
  Forall (aligned a step) s ->
  let r := sp_getitem A zero s rows (option_map Z.of_nat start) (option_map Z.of_nat stop) step in
  well_formed (length rows) r /\
  forall t, at_blocks (blocks r) t =
    if match stop with Some e => a + t * step <? e | None => true end
    then option_map (pick_rows A zero rows) (at_blocks s (a + t * step)) else None.
Proof.
  intros Hs Ho a Hal r. subst r. unfold well_formed. rewrite sp_getitem_blocks.
  assert (Ea : match option_map Z.of_nat start with Some x => x | None => 0%Z end = Z.of_nat a) by (destruct start; reflexivity).
  rewrite Ea. split; [split|].
  - apply slice_streams; auto.
  - apply slice_ordered with (lo := 0); auto. intros; lia.
  - intros t. rewrite slice_at by auto. destruct stop as [e|]; cbn [option_map].
    + destruct (Z.ltb_spec (Z.of_nat (a + t * step)) (Z.of_nat e)), (Nat.ltb_spec (a + t * step) e); try lia; reflexivity.
    + destruct (Z.ltb_spec (Z.of_nat (a + t * step)) (Z.of_nat (sp_n s))) as [H|H]; [auto|].
      destruct (at_blocks s (a + t * step)) eqn:E; [|auto]. apply at_blocks_lt in E; auto. lia.
Qed.
Lemma pick_all ns (c : col) : length c = ns -> pick_rows A zero (seq 0 ns) c = c.
Proof.
  intros <-. unfold pick_rows. apply nth_error_ext. intros i. rewrite nth_error_map', nth_error_seq.
  destruct (Nat.ltb_spec i (length c)) as [H|H]; cbn.
  - symmetry. now apply nth_error_nth'.
  - symmetry. now apply nth_error_None.
Qed.
Lemma aligned_1 a (s : list block) : Forall (aligned a 1) s.
Proof. apply Forall_forall. intros b _. right. left. lia. Qed.

(** [x[:, a:e]] for either kind of signal. *)
Lemma getitem_spec ns (x : signal) (start stop : option nat) : well_formed ns x -> num_streams x = ns ->
  let a := match start with Some i => i | None => 0 end in
  let r := getitem A zero x (option_map Z.of_nat start) (option_map Z.of_nat stop) in
  well_formed ns r /\
  forall t, at_blocks (blocks r) t =
    if match stop with Some e => a + t <? e | None => true end then at_blocks (blocks x) (a + t) else None.
Proof.
  intros [Hs Ho] Hns a r. destruct x as [d|s]; cbn [num_streams blocks] in *.
  - subst r. cbn [getitem blocks]. inversion Hs as [|? ? [_ Hc] _]; subst. cbn [k_cols] in Hc. split.
    + split; cbn; [|split; [lia|exact I]]. constructor; [|constructor]. cbn. split; [auto|].
      apply Forall_forall. intros c Hin. rewrite Forall_forall in Hc. apply Hc. unfold slice in Hin.
      apply (In_nth_error) in Hin as [i Hi]. rewrite nth_error_firstn in Hi. destruct (_ <? _); [|discriminate].
      rewrite nth_error_skipn in Hi. eapply nth_error_In; eauto.
    + intros t. unfold dn_getitem. cbn [d_ns d_cols].
      assert (Ea : match option_map Z.of_nat start with Some z => resolve (length (d_cols d)) z | None => 0 end = a).
      { subst a. destruct start; cbn; [|auto]. unfold resolve. destruct (Z.ltb_spec (Z.of_nat n) 0); lia. }
      rewrite Ea. unfold at_blocks, at_block. cbn [k_off k_cols Nat.leb]. rewrite !Nat.sub_0_r, nth_error_slice.
      destruct stop as [e|]; cbn [option_map].
      * unfold resolve. destruct (Z.ltb_spec (Z.of_nat e) 0); [lia|]. rewrite Nat2Z.id.
        destruct (Nat.ltb_spec t (e - a)), (Nat.ltb_spec (a + t) e); try lia; auto.
      * destruct (Nat.ltb_spec t (length (d_cols d) - a)) as [H|H]; [auto|]. now rewrite (proj2 (nth_error_None (d_cols d) _)) by lia.
  - subst r. cbn [getitem]. unfold all_streams. cbn [num_streams]. rewrite Hns.
    destruct (getitem_sparse_spec s (seq 0 ns) start stop 1 ltac:(lia) Ho (aligned_1 _ _)) as [H1 H2]. rewrite seq_length in H1.
    split; [exact H1|]. intros t. rewrite H2. rewrite Nat.mul_1_r. fold a.
    destruct (at_blocks s (a + t)) as [c|] eqn:E; [|destruct (match stop with Some _ => _ | None => _ end); reflexivity].
    cbn [option_map]. rewrite pick_all; [auto|]. eapply at_blocks_len; eauto.
Qed.
Lemma getitem_streams ns (x : signal) start stop : num_streams x = ns -> (forall s, x = Sparse s -> streams_ok ns s /\ ordered 0 s) ->
  num_samples (getitem A zero x (option_map Z.of_nat start) (option_map Z.of_nat stop)) <> 0 ->
  num_streams (getitem A zero x (option_map Z.of_nat start) (option_map Z.of_nat stop)) = ns.
Proof.
  intros Hns Hx Hn. destruct x as [d|s]; [exact Hns|]. destruct (Hx s eq_refl) as [Hs Ho].
  destruct (getitem_spec ns (Sparse s) start stop (conj Hs Ho) Hns) as [[Hw _] _].
  destruct (getitem A zero (Sparse s) _ _) as [d'|s'].
  - inversion Hw as [|? ? [H _] _]; auto.
  - destruct s' as [|b s']; [elim Hn; reflexivity|]. inversion Hw as [|? ? [H _] _]; auto.
Qed.

(** * Superposition *)
Lemma add_overlap_spec ns off stop bs : off <= stop -> forall acc lo, ordered lo bs -> streams_ok ns bs -> length acc = stop - off ->
  exists r, add_overlap A zero add ns off stop acc bs = Ok r /\ length r = stop - off /\
    forall t, off <= t < stop -> nth_error r (t - off) =
      match at_blocks bs t with Some c => option_map (fun x => addcol x c) (nth_error acc (t - off)) | None => nth_error acc (t - off) end.
Proof.
  intros Hle. induction bs as [|b bs IH]; intros acc lo Ho Hs Hl; cbn [add_overlap].
  - exists acc. cbn. auto.
  - destruct Ho as [Ho1 Ho2]. inversion Hs as [|? ? [Hb _] Hs']; subst.
    destruct (Nat.ltb_spec (k_end b) off) as [H1|H1].
    { destruct (IH acc _ Ho2 Hs' Hl) as (r & E & Lr & N). exists r. split; [auto|]. split; [auto|]. intros t Ht. rewrite N by auto.
      cbn [at_blocks]. now rewrite (proj2 (at_block_None A b t)) by lia. }
    destruct (Nat.ltb_spec stop (k_off b)) as [H2|H2].
    { exists acc. split; [auto|]. split; [auto|]. intros t Ht. cbn [at_blocks]. rewrite (proj2 (at_block_None A b t)) by lia.
      rewrite (at_blocks_low A _ _ _ Ho2) by (unfold k_end; lia). auto. }
    destruct (write_spec A zero addcol (k_ns b) acc (k_off b - off) (Nat.min (stop - off) (k_end b - off))
       (slice (off - k_off b) (Nat.min (length (k_cols b)) (stop - k_off b)) (k_cols b))) as (r1 & E1 & L1 & N1).
    { unfold k_end in *; lia. } { unfold k_end in *; lia. } { rewrite length_slice. unfold k_end in *; lia. }
    rewrite E1. cbn [bind]. destruct (IH r1 _ Ho2 Hs' ltac:(lia)) as (r & E & Lr & N).
    exists r. split; [auto|]. split; [auto|]. intros t Ht. rewrite N by auto. cbn [at_blocks]. rewrite N1, nth_error_slice.
    destruct (at_block b t) as [c|] eqn:Eb.
    + pose proof (at_block_Some A b t c Eb) as Hr. rewrite (at_blocks_low A _ _ _ Ho2) by lia.
      destruct (Nat.leb_spec (k_off b - off) (t - off)); [|lia]. destruct (Nat.ltb_spec (t - off) (Nat.min (stop - off) (k_end b - off))); [|lia]. cbn [andb].
      unfold k_end in *. destruct (Nat.ltb_spec (t - off - (k_off b - off)) (Nat.min (length (k_cols b)) (stop - k_off b) - (off - k_off b))); [|lia].
      unfold at_block in Eb. destruct (Nat.leb_spec (k_off b) t); [|lia].
      replace (off - k_off b + (t - off - (k_off b - off))) with (t - k_off b) by lia. rewrite Eb. destruct (nth_error acc (t - off)); auto.
    + apply at_block_None in Eb. destruct (Nat.leb_spec (k_off b - off) (t - off)); cbn [andb]; [|auto].
      destruct (Nat.ltb_spec (t - off) (Nat.min (stop - off) (k_end b - off))); [lia|auto].
Qed.

Lemma in_union bs1 bs2 t : In t (union_idx A bs1 bs2) <-> at_blocks bs1 t <> None \/ at_blocks bs2 t <> None.
Proof.
  assert (Hex : forall bs, at_blocks bs t <> None <-> exists b : block, In b bs /\ k_off b <= t < k_end b).
  { intros bs. split.
    - intros H. destruct (at_blocks bs t) as [c|] eqn:E; [|congruence]. apply at_blocks_Some in E as (b & Hb & E). apply at_block_Some in E. eauto.
    - intros (b & Hb & Ht) E. rewrite at_blocks_None in E. apply (E b Hb Ht). }
  rewrite !Hex. unfold union_idx. rewrite filter_In, in_seq, existsb_exists. unfold covers.
  assert (Hc : forall b : block, (k_off b <=? t) && (t <? k_end b) = true <-> k_off b <= t < k_end b).
  { intros b. rewrite andb_true_iff, Nat.leb_le, Nat.ltb_lt. tauto. }
  split.
  - intros (_ & b & Hb & H). apply Hc in H. apply in_app_iff in Hb as [Hb|Hb]; [left|right]; eauto.
  - intros H. assert (exists b, In b (bs1 ++ bs2) /\ k_off b <= t < k_end b) as (b & Hb & Ht).
    { destruct H as [(b & Hb & Ht)|(b & Hb & Ht)]; exists b; rewrite in_app_iff; auto. }
    split; [|exists b; split; [auto|now apply Hc]]. split; [lia|].
    assert (k_end b <= list_max (map k_end (bs1 ++ bs2))).
    { pose proof (proj1 (list_max_le (map k_end (bs1 ++ bs2)) _) (Nat.le_refl _)) as HF. rewrite Forall_forall in HF. apply HF. apply in_map. auto. }
    lia.
Qed.
Lemma union_windows bs1 bs2 : gaps 0 (blocks_union A bs1 bs2) /\
  forall t, existsb (fun w => (fst w <=? t) && (t <? snd w)) (blocks_union A bs1 bs2) = true <-> at_blocks bs1 t <> None \/ at_blocks bs2 t <> None.
Proof.
  unfold blocks_union. destruct (windows_props (union_idx A bs1 bs2)) as [Hg Hin]; [apply sorted_filter_seq|].
  split; [auto|]. intros t. rewrite existsb_window, <- Hin. apply in_union.
Qed.
Lemma gaps_lt ws : forall lo a e, gaps lo ws -> In (a, e) ws -> a < e.
Proof.
  induction ws as [|[x y] ws IH]; intros lo a e Hg Hin; [destruct Hin|]. cbn in Hg. destruct Hg as (_ & H2 & H3). destruct Hin as [H|H]; [congruence|eauto].
Qed.
(** A signal made of one block per window of the union. *)
Lemma at_union ns F bs1 bs2 u : Forall2 (holds A ns F) (blocks_union A bs1 bs2) u ->
  (forall t, at_blocks bs1 t <> None \/ at_blocks bs2 t <> None -> length (F t) = ns) ->
  well_formed ns (Sparse u) /\ forall t, at_blocks u t = match at_blocks bs1 t, at_blocks bs2 t with None, None => None | _, _ => Some (F t) end.
Proof.
  intros HF Hlen. destruct (union_windows bs1 bs2) as [Hg Hex]. split; [split|].
  - eapply streams_windows; [exact HF|]. intros a e t Hin Ht. apply Hlen, Hex, existsb_window. eauto.
  - eapply ordered_windows; eauto.
  - intros t. cbn [blocks]. rewrite (at_windows A ns F _ _ HF). specialize (Hex t). destruct (existsb _ _).
    + destruct (proj1 Hex eq_refl) as [H|H]; destruct (at_blocks bs1 t), (at_blocks bs2 t); congruence.
    + destruct (at_blocks bs1 t); [|destruct (at_blocks bs2 t); [|auto]]; exfalso;
        (assert (false = true) by (apply Hex; (left + right); discriminate)); discriminate.
Qed.

Lemma unify_spec ns s added : streams_ok ns s -> ordered 0 s -> streams_ok ns added -> ordered 0 added ->
  exists u, unify A zero add ns ns s added = Ok u /\ well_formed ns (Sparse u) /\
   forall t, value zero ns (Sparse u) t = addcol (value zero ns (Sparse s) t) (value zero ns (Sparse added) t).
Proof.
  intros Hs1 Ho1 Hs2 Ho2. unfold unify.
  set (F := fun t => addcol (value zero ns (Sparse s) t) (value zero ns (Sparse added) t)).
  assert (Hv : forall bs t, streams_ok ns bs -> length (value zero ns (Sparse bs) t) = ns).
  { intros bs t Hb. unfold value. cbn [blocks]. destruct (at_blocks bs t) eqn:E; [eapply at_blocks_len; eauto|apply repeat_length]. }
  destruct (mapM_Forall2 (fun w =>
          do a1 <- add_overlap A zero add ns (fst w) (snd w) (repeat (zcol ns) (snd w - fst w)) s;
          do a2 <- add_overlap A zero add ns (fst w) (snd w) a1 added;
          new_block A (fst w) ns (snd w - fst w) ns a2) (holds A ns F) (blocks_union A s added)) as (u & Eu & HF).
  { intros [a e] Hin. cbn [fst snd]. pose proof (proj1 (union_windows s added)) as Hg. pose proof (gaps_lt _ _ _ _ Hg Hin) as Hae.
    destruct (add_overlap_spec ns a e s ltac:(lia) (repeat (zcol ns) (e - a)) 0 Ho1 Hs1 ltac:(apply repeat_length)) as (r1 & E1 & L1 & N1).
    rewrite E1. cbn [bind].
    destruct (add_overlap_spec ns a e added ltac:(lia) r1 0 Ho2 Hs2 L1) as (r2 & E2 & L2 & N2). rewrite E2. cbn [bind].
    unfold new_block. rewrite L2, !Nat.eqb_refl. cbn [andb]. eexists; split; [reflexivity|]. unfold holds. cbn [k_off k_cols k_ns fst snd].
    split; [auto|]. split; [auto|]. split; [auto|]. intros t Ht. rewrite N2, N1 by auto.
    rewrite nth_error_repeat. destruct (Nat.ltb_spec (t - a) (e - a)); [|lia]. unfold F, value. cbn [blocks].
    destruct (at_blocks s t) as [c|] eqn:Ec; cbn [option_map].
    - pose proof (at_blocks_len A _ _ _ _ Hs1 Ec) as Hlc. rewrite (addcol_zl ns c Hlc). destruct (at_blocks added t); cbn; [auto|]. now rewrite addcol_zr.
    - destruct (at_blocks added t); cbn; [auto|]. f_equal. fold (zcol ns). rewrite addcol_zr; [auto|apply repeat_length]. }
  rewrite Eu. exists u. split; [auto|].
  destruct (at_union ns F s added u HF) as [Hw Hat].
  { intros t _. unfold F. apply length_addcol; apply Hv; auto. }
  split; [auto|]. intros t. unfold value at 1. cbn [blocks]. rewrite Hat. unfold F, value. cbn [blocks].
  destruct (at_blocks s t), (at_blocks added t); auto. fold (zcol ns). rewrite addcol_zr; [auto|apply repeat_length].
Qed.

Lemma at_shift k bs t : at_blocks (map (shift_block A k) bs) t = if k <=? t then at_blocks bs (t - k) else None.
Proof.
  induction bs as [|b bs IH]; cbn [map at_blocks]; [destruct (k <=? t); auto|]. rewrite IH. unfold at_block, shift_block. cbn [k_off k_cols].
  destruct (Nat.leb_spec k t) as [H|H].
  - destruct (Nat.leb_spec (k_off b + k) t), (Nat.leb_spec (k_off b) (t - k)); try lia; [|auto].
    replace (t - (k_off b + k)) with (t - k - k_off b) by lia. auto.
  - destruct (Nat.leb_spec (k_off b + k) t); [lia|auto].
Qed.
Lemma ordered_shift k bs : forall lo, ordered lo bs -> ordered (lo + k) (map (shift_block A k) bs).
Proof.
  induction bs as [|b bs IH]; intros lo H; [exact I|]. destruct H as [H1 H2]. cbn [map ordered]. split; [cbn; lia|].
  replace (k_end (shift_block A k b)) with (k_end b + k) by (unfold k_end, shift_block; cbn; lia). auto.
Qed.
Lemma streams_shift k ns bs : streams_ok ns bs -> streams_ok ns (map (shift_block A k) bs).
Proof. unfold streams_ok. induction 1; constructor; auto. Qed.

Lemma sp_ns_ok ns (s : list block) : streams_ok ns s -> s <> [] -> sp_ns s = ns.
Proof. intros H Hne. destruct s; [congruence|]. inversion H as [|? ? [H1 _] _]; auto. Qed.
Lemma list_max_seq n : list_max (seq 0 (S n)) = n.
Proof.
  induction n as [|n IH]; [reflexivity|]. rewrite seq_S, list_max_app, IH. cbn. lia.
Qed.
Lemma num_streams_ok ns (x : signal) : streams_ok ns (blocks x) -> blocks x <> [] -> num_streams x = ns.
Proof. intros H Hne. destruct x as [d|s]; cbn in *; [inversion H as [|? ? [H1 _] _]; auto|now apply sp_ns_ok]. Qed.

Lemma value_none ns (x : signal) t : at_blocks (blocks x) t = None -> value zero ns x t = zcol ns.
Proof. unfold value. intros ->. reflexivity. Qed.
Lemma at_num_samples ns (x : signal) t c : well_formed ns x -> at_blocks (blocks x) t = Some c -> t < num_samples x.
Proof.
  intros [_ Ho] H. destruct x as [d|s]; cbn [blocks num_samples] in *; [|eapply at_blocks_lt; eauto].
  apply at_blocks_Some in H as (b & [<-|[]] & H). apply at_block_Some in H. unfold k_end in H. cbn in H. lia.
Qed.

Lemma value_len ns (x : signal) t : streams_ok ns (blocks x) -> length (value zero ns x t) = ns.
Proof. intros H. unfold value. destruct (at_blocks (blocks x) t) eqn:E; [eapply at_blocks_len; [exact H|exact E]|apply repeat_length]. Qed.

Lemma superimpose_continue ns s (bs : list block) (added1 after : signal) :
  0 < ns -> streams_ok ns s -> ordered 0 s -> s <> [] -> streams_ok ns bs -> ordered 0 bs -> num_streams added1 = ns ->
  forall idx, idx = seq 0 (num_streams added1) ->
  exists r, match idx with
            | [] => Ok (s, after)
            | _ => if sp_ns s <=? list_max idx then Raise ValueError
                   else do u <- unify A zero add (length idx) (sp_ns s) s bs;
                        Ok (match u with [] => from_dense A zero add is_zero (sp_ns s) [] 0 | _ => u end, after)
            end = Ok (r, after) /\
    well_formed ns (Sparse r) /\ sp_ns r = ns /\
    forall t, value zero ns (Sparse r) t = addcol (value zero ns (Sparse s) t) (value zero ns (Sparse bs) t).
Proof.
  intros Hns Hs1 Ho1 Hne Hs2 Ho2 Ha idx Hidx. rewrite Ha in Hidx. rewrite (sp_ns_ok ns s Hs1 Hne).
  destruct ns as [|n]; [lia|]. assert (Hm : list_max idx = n) by (subst idx; apply list_max_seq).
  assert (Hl : length idx = S n) by (subst idx; apply seq_length).
  destruct idx as [|i idx]; [discriminate|]. rewrite Hm, Hl. destruct (Nat.leb_spec (S n) n); [lia|].
  destruct (unify_spec (S n) s bs Hs1 Ho1 Hs2 Ho2) as (u & Eu & Hw & Hv). rewrite Eu. cbn [bind].
  exists (match u with [] => from_dense A zero add is_zero (S n) [] 0 | _ => u end). split; [auto|].
  destruct u as [|b u].
  - cbn. split. { split; [repeat constructor|cbn; auto]. } split; [auto|]. intros t. rewrite <- Hv. unfold value. cbn. unfold at_block. cbn. 
    destruct (t - 0); reflexivity.
  - split; [auto|]. split; [|auto]. apply sp_ns_ok; [apply Hw|discriminate].
Qed.

Lemma superimpose_spec ns s added d : 0 < ns -> well_formed ns (Sparse s) -> s <> [] ->
  well_formed ns added -> num_streams added = ns ->
  exists r after, sp_superimpose A zero add is_zero s added d None = Ok (r, after) /\
    well_formed ns (Sparse r) /\ sp_ns r = ns /\
    (forall t, value zero ns (Sparse r) t = addcol (value zero ns (Sparse s) t) (valueZ zero ns added (Z.of_nat t - d))) /\
    ((d <= 0)%Z \/ (exists x, added = Dense x) -> after = added).
Proof.
  intros Hns [Hs1 Ho1] Hne Hw2 Hn2. pose proof Hw2 as [Hs2 Ho2]. cbn [blocks] in *. unfold sp_superimpose.
  destruct (Z.ltb_spec d 0) as [Hd|Hd].
  - pose proof (getitem_spec ns added (Some (Z.to_nat (- d))) None Hw2 Hn2) as HG.
    pose proof (getitem_streams ns added (Some (Z.to_nat (- d))) None Hn2) as HS.
    cbn [option_map] in HG, HS. rewrite Z2Nat.id in HG, HS by lia. cbn zeta in HG.
    destruct HG as [Hw3 Hat]. set (a1 := getitem A zero added (Some (- d)%Z) None) in *.
    assert (Hval : forall t, valueZ zero ns added (Z.of_nat t - d) = value zero ns a1 t).
    { intros t. unfold valueZ. destruct (Z.ltb_spec (Z.of_nat t - d) 0); [lia|]. unfold value. rewrite Hat.
      replace (Z.to_nat (Z.of_nat t - d)) with (Z.to_nat (- d) + t) by lia. reflexivity. }
    destruct (Nat.eqb_spec (num_samples a1) 0) as [E|E].
    + exists s, added. split; [auto|]. split; [split; auto|]. split; [now apply sp_ns_ok|]. split; [|auto]. intros t. rewrite Hval.
      rewrite (value_none ns a1 t). { rewrite addcol_zr; [auto|]. apply value_len. exact Hs1. }
      destruct (at_blocks (blocks a1) t) eqn:Et; [|auto]. apply (at_num_samples ns) in Et; [lia|auto].
    + assert (Hn3 : num_streams a1 = ns).
      { apply HS; [|auto]. intros s' ->. cbn in *. auto. }
      destruct Hw3 as [Hs3 Ho3].
      destruct (superimpose_continue ns s (blocks a1) a1 added Hns Hs1 Ho1 Hne Hs3 Ho3 Hn3 _ eq_refl) as (r & Er & H1 & H2 & H3).
      exists r, added. split; [exact Er|]. split; [auto|]. split; [auto|]. split; [|auto]. intros t. rewrite H3, Hval. reflexivity.
  - set (k := Z.to_nat d).
    assert (Hval : forall t, valueZ zero ns added (Z.of_nat t - d) = value zero ns (Sparse (map (shift_block A k) (blocks added))) t).
    { intros t. unfold valueZ, value. cbn [blocks]. rewrite at_shift. destruct (Z.ltb_spec (Z.of_nat t - d) 0), (Nat.leb_spec k t); try (subst k; lia); [auto|].
      replace (Z.to_nat (Z.of_nat t - d)) with (t - k) by (subst k; lia). reflexivity. }
    assert (Hs4 := streams_shift k ns _ Hs2). assert (Ho4 : ordered 0 (map (shift_block A k) (blocks added))).
    { eapply ordered_weaken; [|apply ordered_shift; exact Ho2]. lia. }
    destruct (Z.ltb_spec 0 d) as [Hd'|Hd'].
    + destruct added as [x|sa].
      * destruct (superimpose_continue ns s _ (Dense x) (Dense x) Hns Hs1 Ho1 Hne Hs4 Ho4 Hn2 _ eq_refl) as (r & Er & H1 & H2 & H3).
        exists r, (Dense x). split; [exact Er|]. split; [auto|]. split; [auto|]. split; [|auto]. intros t. rewrite H3, Hval. reflexivity.
      * set (sh := map (shift_block A k) (blocks (Sparse sa))) in *.
        assert (Hn5 : num_streams (Sparse sh) = ns). { subst sh. cbn in *. destruct sa; [cbn in Hn2; lia|cbn in *; auto]. }
        destruct (superimpose_continue ns s sh (Sparse sh) (Sparse sh) Hns Hs1 Ho1 Hne Hs4 Ho4 Hn5 _ eq_refl) as (r & Er & H1 & H2 & H3).
        exists r, (Sparse sh). split; [exact Er|]. split; [auto|]. split; [auto|]. split; [intros t; rewrite H3, Hval; reflexivity|].
        intros [H|[x H]]; [lia|discriminate].
    + assert (d = 0%Z) by lia. subst d. destruct (superimpose_continue ns s (blocks added) added added Hns Hs1 Ho1 Hne Hs2 Ho2 Hn2 _ eq_refl) as (r & Er & H1 & H2 & H3).
      exists r, added. split; [exact Er|]. split; [auto|]. split; [auto|]. split; [|auto]. intros t. rewrite H3. f_equal.
      unfold valueZ. destruct (Z.ltb_spec (Z.of_nat t - 0) 0); [lia|]. replace (Z.to_nat (Z.of_nat t - 0)) with t by lia. reflexivity.
Qed.

Lemma block_end_num (x : signal) : ordered 0 (blocks x) -> forall b, In b (blocks x) -> k_end b <= num_samples x.
Proof.
  intros Ho b Hb. destruct x as [d|s]; cbn [blocks num_samples] in *; [|eapply sp_n_spec; eauto].
  destruct Hb as [<-|[]]. unfold k_end. cbn. lia.
Qed.
Lemma num_max (x : signal) : ordered 0 (blocks x) -> list_max (map k_end (blocks x)) = num_samples x.
Proof.
  intros Ho. apply Nat.le_antisymm.
  - apply list_max_le. apply Forall_forall. intros e He. apply in_map_iff in He as (b & <- & Hb). now apply block_end_num.
  - destruct x as [d|s]; cbn [blocks num_samples] in *; [cbn; unfold k_end; cbn; lia|].
    unfold sp_n. destruct s as [|x l _] using rev_ind; [cbn; lia|]. rewrite rev_app_distr. cbn [rev app].
    rewrite map_app, list_max_app. cbn. lia.
Qed.

Lemma dn_superimpose_spec ns self added d : 0 < ns -> well_formed ns (Dense self) -> d_ns self = ns -> d_cols self <> [] ->
  well_formed ns added -> num_streams added = ns -> (d <= 0)%Z ->
  exists r, dn_superimpose A zero add self added d = Ok (Dense r) /\ d_ns r = ns /\ well_formed ns (Dense r) /\
    forall t, value zero ns (Dense r) t = addcol (value zero ns (Dense self) t) (valueZ zero ns added (Z.of_nat t - d)).
Proof.
  intros Hns [Hs1 _] Hn1 Hne Hw2 Hn2 Hd. unfold dn_superimpose. rewrite Hn1.
  destruct (Nat.eqb_spec ns 0) as [?|_]; [lia|]. destruct (Nat.eqb_spec (length (d_cols self)) 0) as [E|_]; [destruct (d_cols self); [congruence|discriminate]|]. cbn [orb].
  destruct (Z.ltb_spec 0 d) as [?|_]; [lia|].
  set (a1 := if (d <? 0)%Z then getitem A zero added (Some (- d)%Z) None else added).
  assert (Ha1 : well_formed ns a1 /\ (num_streams a1 = ns \/ blocks a1 = []) /\ forall t, at_blocks (blocks a1) t = at_blocks (blocks added) (Z.to_nat (- d) + t)).
  { subst a1. destruct (Z.ltb_spec d 0) as [Hd'|Hd'].
    - pose proof (getitem_spec ns added (Some (Z.to_nat (- d))) None Hw2 Hn2) as HG. cbn [option_map] in HG. rewrite Z2Nat.id in HG by lia.
      destruct HG as [Hw3 Hat]. split; [auto|]. split; [|auto]. destruct (blocks (getitem A zero added (Some (- d)%Z) None)) eqn:Eb; [auto|]. left.
      apply num_streams_ok; [apply Hw3|congruence].
    - split; [auto|]. split; [auto|]. intros t. replace (Z.to_nat (- d)) with 0 by lia. reflexivity. }
  clearbody a1. destruct Ha1 as ([Hs3 Ho3] & Hn3 & Hat).
  assert (Hmax : Nat.max ns (num_streams a1) = ns).
  { destruct Hn3 as [->|E]; [lia|]. destruct a1 as [?|s]; cbn in E; [discriminate|]. subst s. cbn. lia. }
  rewrite Hmax, Nat.sub_diag. inversion Hs1 as [|? ? [_ Hc] _]; subst. cbn [k_cols] in Hc.
  assert (Hid : map (fun c => c ++ zcol 0) (d_cols self) = d_cols self).
  { rewrite <- (map_id (d_cols self)) at 2. apply map_ext. intros c. apply app_nil_r. }
  rewrite Hid. set (ns := d_ns self) in *. set (n := Nat.max (length (d_cols self)) (num_samples a1)).
  set (base := d_cols self ++ repeat (zcol ns) (n - length (d_cols self))).
  assert (Lb : length base = n) by (subst base; rewrite app_length, repeat_length; lia).
  assert (Hbase : forall t, t < n -> nth_error base t = Some (value zero ns (Dense self) t)).
  { intros t Ht. subst base. unfold value. cbn. unfold at_block. cbn. rewrite Nat.sub_0_r.
    destruct (Nat.lt_ge_cases t (length (d_cols self))) as [Hlt|Hge].
    - rewrite nth_error_app1 by auto. destruct (nth_error (d_cols self) t) eqn:Et; [auto|]. apply nth_error_None in Et. lia.
    - rewrite nth_error_app2 by auto. rewrite (proj2 (nth_error_None (d_cols self) t)) by auto. rewrite nth_error_repeat.
      destruct (Nat.ltb_spec (t - length (d_cols self)) (n - length (d_cols self))); [auto|lia]. }
  destruct (write_blocks_spec A zero addcol ns 0 (blocks a1) base 0 Ho3 Hs3) as (r & Er & Lr & N).
  { intros b Hb. rewrite Lb. pose proof (block_end_num a1 Ho3 b Hb). lia. }
  assert (Eadd : forall bs tg, add_blocks A zero add ns tg bs = write_blocks A zero addcol ns 0 tg bs).
  { induction bs as [|b bs IHb]; intros tg; [reflexivity|]. cbn [add_blocks write_blocks Nat.add]. destruct (write A zero addcol ns tg _ _ _ _); cbn; auto. }
  rewrite Eadd, Er. cbn [bind]. eexists; split; [reflexivity|]. cbn [d_ns]. split; [auto|].
  assert (Hr : forall t, t < n -> nth_error r t = Some (addcol (value zero ns (Dense self) t) (value zero ns a1 t))).
  { intros t Ht. rewrite N. cbn [Nat.leb]. rewrite Nat.sub_0_r, Hbase by auto. 
    replace (value zero ns a1 t) with (match at_blocks (blocks a1) t with Some c => c | None => zcol ns end) by reflexivity.
    destruct (at_blocks (blocks a1) t); cbn [option_map]; [auto|].
    f_equal. symmetry. apply addcol_zr. apply value_len. exact Hs1. }
  split.
  { split; cbn; [|auto]. constructor; [|constructor]. cbn. split; [auto|]. apply Forall_forall. intros c Hin. apply In_nth_error in Hin as [i Hi].
    assert (i < n) by (rewrite <- Lb, <- Lr; apply nth_error_Some; congruence). rewrite Hr in Hi by auto. injection Hi as <-.
    apply length_addcol; apply value_len; auto. }
  assert (Hva : forall t, valueZ zero ns added (Z.of_nat t - d) = value zero ns a1 t).
  { intros t. unfold valueZ. destruct (Z.ltb_spec (Z.of_nat t - d) 0); [lia|]. unfold value. rewrite Hat. replace (Z.to_nat (Z.of_nat t - d)) with (Z.to_nat (- d) + t) by lia. auto. }
  intros t. rewrite Hva. unfold value at 1. cbn. unfold at_block. cbn. rewrite Nat.sub_0_r.
  destruct (Nat.lt_ge_cases t n) as [Hlt|Hge]; [rewrite Hr by auto; auto|].
  rewrite (proj2 (nth_error_None r t)) by lia.
  rewrite (value_none ns a1 t). 2: { destruct (at_blocks (blocks a1) t) eqn:Et; [|auto]. apply (at_num_samples ns) in Et; [lia|split; auto]. }
  rewrite (value_none ns (Dense self) t). { fold (zcol ns). rewrite addcol_zr; [auto|apply repeat_length]. }
  cbn. unfold at_block. cbn. rewrite Nat.sub_0_r. rewrite (proj2 (nth_error_None (d_cols self) t)) by lia. auto.
Qed.

(** * Appending *)
Definition appended (ns n : nat) (x v : signal) (t : nat) : col :=
  if t <? n then value zero ns x t else value zero ns v (t - n).
Lemma at_app (bs1 bs2 : list block) t : at_blocks (bs1 ++ bs2) t = match at_blocks bs1 t with Some c => Some c | None => at_blocks bs2 t end.
Proof. induction bs1 as [|b bs1 IH]; cbn; [auto|]. rewrite IH. destruct (at_block b t); auto. Qed.
Lemma ordered_app (bs1 bs2 : list block) : forall lo n, ordered lo bs1 -> (forall b, In b bs1 -> k_end b <= n) -> lo <= n -> ordered n bs2 -> ordered lo (bs1 ++ bs2).
Proof.
  induction bs1 as [|b bs1 IH]; intros lo n H1 Hn Hl H2; cbn.
  - eapply ordered_weaken; eauto.
  - destruct H1 as [H1 H1']. split; [auto|]. apply IH with (n := n); auto; [intros; apply Hn; right; auto|apply Hn; left; auto].
Qed.
Lemma sp_n_last (l : list block) b : sp_n (l ++ [b]) = k_end b.
Proof. unfold sp_n. rewrite rev_app_distr. reflexivity. Qed.
Lemma sp_append_samples_spec ns s v : s <> [] -> well_formed ns (Sparse s) -> well_formed ns v -> num_streams v = ns ->
  exists r, sp_append_samples A s v = Ok r /\ well_formed ns (Sparse r) /\ sp_ns r = ns /\ sp_n r = sp_n s + (if blocks v then 0 else num_samples v) /\
    forall t, value zero ns (Sparse r) t = if t <? sp_n s then value zero ns (Sparse s) t else value zero ns v (t - sp_n s).
Proof.
  intros Hne [Hs1 Ho1] [Hs2 Ho2] Hn. cbn [blocks] in *. unfold sp_append_samples. rewrite (sp_ns_ok ns s Hs1 Hne), Hn, Nat.eqb_refl.
  eexists; split; [reflexivity|]. split; [|split; [|split]].
  - split; cbn [blocks].
    + unfold streams_ok in *. apply Forall_app. split; [auto|]. now apply streams_shift.
    + apply ordered_app with (n := sp_n s); [auto| |lia|].
      * intros b Hb. eapply sp_n_spec; eauto.
      * apply (ordered_shift (sp_n s) (blocks v) 0 Ho2).
  - destruct s as [|b s]; [congruence|]. cbn. inversion Hs1 as [|? ? [H _] _]; auto.
  - destruct (blocks v) as [|b0 l0] eqn:Eb; [cbn [map]; rewrite app_nil_r; lia|]. rewrite <- Eb.
    destruct v as [x|sv]; cbn [blocks num_samples] in *.
    + unfold sp_n at 1. rewrite rev_app_distr. cbn. unfold k_end. cbn. lia.
    + subst sv. clear. destruct (exists_last (l := b0 :: l0) ltac:(discriminate)) as (l & b & ->). rewrite map_app, app_assoc. cbn [map]. rewrite !sp_n_last.
      unfold k_end, shift_block. cbn. lia.
  - intros t. unfold value. cbn [blocks]. rewrite at_app, at_shift.
    destruct (Nat.ltb_spec t (sp_n s)) as [Hlt|Hge].
    + destruct (at_blocks s t); [auto|]. destruct (Nat.leb_spec (sp_n s) t); [lia|auto].
    + destruct (at_blocks s t) eqn:E; [apply at_blocks_lt in E; auto; lia|]. destruct (Nat.leb_spec (sp_n s) t); [auto|lia].
Qed.

Lemma value_dense ns d t : value zero ns (Dense d) t = match nth_error (d_cols d) t with Some c => c | None => zcol ns end.
Proof. unfold value. cbn [blocks at_blocks]. unfold at_block. cbn [k_off k_cols Nat.leb]. rewrite Nat.sub_0_r. destruct (nth_error (d_cols d) t); reflexivity. Qed.
Lemma nth_app_zeros ns (l : list col) k t : match nth_error (l ++ repeat (zcol ns) k) t with Some c => c | None => zcol ns end =
  match nth_error l t with Some c => c | None => zcol ns end.
Proof.
  destruct (Nat.lt_ge_cases t (length l)); [now rewrite nth_error_app1|]. rewrite nth_error_app2 by auto. rewrite (proj2 (nth_error_None l t)) by auto.
  rewrite nth_error_repeat. destruct (_ <? _); auto.
Qed.
Lemma dn_append_samples_spec ns x v : well_formed ns (Dense x) -> d_ns x = ns -> well_formed ns v -> blocks v <> [] ->
  exists r, dn_append_samples A zero x v = Ok r /\ d_ns r = ns /\ length (d_cols r) = length (d_cols x) + num_samples v /\ well_formed ns (Dense r) /\
    forall t, value zero ns (Dense r) t = if t <? length (d_cols x) then value zero ns (Dense x) t else value zero ns v (t - length (d_cols x)).
Proof.
  intros [Hs1 _] Hn1 [Hs2 Ho2] Hne. unfold dn_append_samples. inversion Hs1 as [|? ? [_ Hc] _]; subst. cbn [k_cols] in Hc.
  assert (Edef : forall k : list block -> result (dense A), match blocks v with [] => Raise ValueError | bs => k bs end = k (blocks v))
    by (intros k; destruct (blocks v); [congruence|reflexivity]).
  rewrite (Edef (fun bs => do cols <- write_blocks A zero (overwrite A) (d_ns x) (length (d_cols x)) (d_cols x ++ repeat (zcol (d_ns x)) (list_max (map k_end bs))) bs;
                    Ok (mkD (d_ns x) cols))).
  rewrite (num_max v Ho2). set (n := length (d_cols x)).
  destruct (write_blocks_spec A zero (overwrite A) (d_ns x) n (blocks v) (d_cols x ++ repeat (zcol (d_ns x)) (num_samples v)) 0 Ho2 Hs2) as (r & Er & Lr & N).
  { intros b Hb. rewrite app_length, repeat_length. pose proof (block_end_num v Ho2 b Hb). fold n. lia. }
  rewrite Er. cbn [bind].
  rewrite app_length, repeat_length in Lr. fold n in Lr.
  assert (Hv : forall t, value zero (d_ns x) (Dense (mkD (d_ns x) r)) t = if t <? n then value zero (d_ns x) (Dense x) t else value zero (d_ns x) v (t - n)).
  { intros t. rewrite !value_dense. unfold value. cbn [d_cols]. rewrite N.
    destruct (Nat.leb_spec n t) as [Hle|Hgt], (Nat.ltb_spec t n) as [Hl|Hl]; try lia.
    - destruct (at_blocks (blocks v) (t - n)) as [c|] eqn:E.
      + apply (at_num_samples (d_ns x)) in E; [|split; auto]. destruct (nth_error (d_cols x ++ _) t) eqn:Et; [reflexivity|]. apply nth_error_None in Et. rewrite app_length, repeat_length in Et. fold n in Et. lia.
      + pose proof (nth_app_zeros (d_ns x) (d_cols x) (num_samples v) t) as Hz. unfold Signal_Model.zcol in *. rewrite Hz. fold n in Hle. rewrite (proj2 (nth_error_None (d_cols x) t)) by auto. reflexivity.
    - rewrite nth_error_app1 by auto. destruct (nth_error (d_cols x) t); reflexivity. }
  eexists; split; [reflexivity|]. cbn [d_ns d_cols]. split; [auto|]. split; [auto|]. split; [|auto].
  split; cbn; [|auto]. constructor; [|constructor]. cbn. split; [auto|]. apply Forall_forall. intros c Hin. apply In_nth_error in Hin as [i Hi].
  specialize (Hv i). rewrite (value_dense (d_ns x) (mkD (d_ns x) r)) in Hv. cbn [d_cols] in Hv. rewrite Hi in Hv. rewrite Hv. destruct (i <? n); apply value_len; auto.
Qed.

Lemma dn_append_streams_spec ns nv x v : well_formed ns (Dense x) -> d_ns x = ns -> well_formed nv v -> blocks v <> [] -> num_samples v <= length (d_cols x) ->
  exists r, dn_append_streams A zero x v = Ok r /\ d_ns r = ns + nv /\ length (d_cols r) = length (d_cols x) /\
    forall t, t < length (d_cols x) -> nth_error (d_cols r) t = Some (value zero ns (Dense x) t ++ value zero nv v t).
Proof.
  intros [Hs1 _] Hn1 [Hs2 Ho2] Hne Hlen. unfold dn_append_streams. inversion Hs1 as [|? ? [_ Hc] _]; subst. cbn [k_cols] in Hc.
  set (ns := d_ns x) in *.
  assert (Hex : list_max (map k_ns (blocks v)) = nv).
  { apply Nat.le_antisymm.
    - apply list_max_le. apply Forall_forall. intros e He. apply in_map_iff in He as (b & <- & Hb). unfold streams_ok in Hs2. rewrite Forall_forall in Hs2. destruct (Hs2 b Hb). lia.
    - destruct (blocks v) as [|b l]; [congruence|]. inversion Hs2 as [|? ? [Hb _] _]; subst. cbn. lia. }
  assert (Edef : forall k : list block -> result (dense A), match blocks v with [] => Raise ValueError | bs => k bs end = k (blocks v))
    by (intros k; destruct (blocks v); [congruence|reflexivity]).
  rewrite (Edef (fun bs => do cols <- put_blocks A zero ns (ns + list_max (map k_ns bs)) (map (fun c => c ++ zcol (list_max (map k_ns bs))) (d_cols x)) bs;
                    Ok (mkD (ns + list_max (map k_ns bs)) cols))).
  rewrite Hex. set (target := map (fun c => c ++ zcol nv) (d_cols x)).
  assert (Lt : length target = length (d_cols x)) by apply map_length.
  destruct (write_blocks_spec A zero (put_rows A ns (ns + nv)) nv 0 (blocks v) target 0 Ho2 Hs2) as (r & Er & Lr & N).
  { intros b Hb. rewrite Lt. pose proof (block_end_num v Ho2 b Hb). lia. }
  assert (Eput : forall bs tg, streams_ok nv bs -> put_blocks A zero ns (ns + nv) tg bs = write_blocks A zero (put_rows A ns (ns + nv)) nv 0 tg bs).
  { induction bs as [|b bs IHb]; intros tg Hb; [reflexivity|]. inversion Hb as [|? ? [Hb1 _] Hb2]. cbn [put_blocks write_blocks Nat.add].
    rewrite Hb1. destruct (write A zero _ _ tg _ _ _ _); cbn; auto. }
  rewrite (Eput (blocks v) target Hs2), Er. cbn [bind].
  eexists; split; [reflexivity|]. cbn [d_ns d_cols]. split; [auto|]. split; [lia|]. intros t Ht. rewrite N. cbn [Nat.leb]. rewrite Nat.sub_0_r.
  subst target. rewrite nth_error_map'. destruct (nth_error (d_cols x) t) as [c|] eqn:Ec; [|apply nth_error_None in Ec; lia]. cbn [option_map].
  assert (Hcl : length c = ns) by (rewrite Forall_forall in Hc; apply Hc; eapply nth_error_In; eauto).
  assert (Hvx : value zero ns (Dense x) t = c) by (unfold value; cbn; unfold at_block; cbn; rewrite Nat.sub_0_r, Ec; auto). rewrite Hvx.
  unfold value. destruct (at_blocks (blocks v) t) as [e|] eqn:Ee; [|auto]. cbn [option_map].
  assert (Hel : length e = nv) by (eapply at_blocks_len; eauto). unfold put_rows.
  rewrite firstn_app, Hcl, Nat.sub_diag, <- Hcl, firstn_all. cbn [firstn]. rewrite app_nil_r. f_equal. f_equal.
  rewrite skipn_all2 by (rewrite app_length, length_zcol; lia). apply app_nil_r.
Qed.

(** Streams of sparse signals: whatever is returned is right. *)
Lemma as_array_spec ns (x : signal) r : well_formed ns x -> as_array A zero x = Ok r -> blocks x <> [] ->
  d_ns r = ns /\ length (d_cols r) = num_samples x /\ forall t, t < num_samples x -> nth_error (d_cols r) t = Some (value zero ns x t).
Proof.
  intros [Hs Ho] E Hne. destruct x as [d|s]; cbn [as_array blocks num_samples] in *.
  - injection E as <-. inversion Hs as [|? ? [H _] _]; subst. cbn. split; [auto|]. split; [auto|]. intros t Ht. unfold value. cbn. unfold at_block. cbn.
    rewrite Nat.sub_0_r. destruct (nth_error (d_cols d) t) eqn:Et; [auto|]. apply nth_error_None in Et. lia.
  - destruct (to_dense_spec A zero ns s (conj Hs Ho) Hne) as (d & Ed & H1 & H2 & H3). rewrite Ed in E. injection E as <-. auto.
Qed.
Lemma as_array_ok ns (x : signal) : well_formed ns x -> exists r, as_array A zero x = Ok r.
Proof.
  intros Hw. destruct x as [d|s]; cbn; [eauto|]. destruct s as [|b s]; [cbn; eauto|].
  destruct (to_dense_spec A zero ns (b :: s) Hw ltac:(discriminate)) as (d & Ed & _). eauto.
Qed.
Lemma as_array_empty (x : signal) r : blocks x = [] -> as_array A zero x = Ok r -> d_cols r = [].
Proof. destruct x as [d|s]; cbn; [discriminate|]. intros ->. cbn. intros [= <-]. reflexivity. Qed.

Notation no_cancelling := (no_cancelling zero add is_zero).
Lemma incoming_at (v : signal) t : Forall (fun b => k_cols b <> []) (blocks v) -> ordered 0 (blocks v) ->
  at_blocks (flat_map (fun b => from_dense A zero add is_zero (k_ns b) (k_cols b) (k_off b)) (blocks v)) t =
  match at_blocks (blocks v) t with
  | Some c => if is_zero (colsum A zero add c) then None else Some c
  | None => None
  end.
Proof.
  generalize 0 as lo. induction (blocks v) as [|b bs IH]; intros lo Hne Ho; [reflexivity|]. cbn [flat_map at_blocks]. inversion Hne; subst. destruct Ho as [Ho1 Ho2]. rewrite at_app.
  rewrite from_dense_at by auto. unfold at_block. destruct (Nat.leb_spec (k_off b) t) as [H|H].
  - destruct (nth_error (k_cols b) (t - k_off b)) as [c|] eqn:E; [|eapply IH; eauto].
    destruct (is_zero (colsum A zero add c)); [|auto]. rewrite (IH (k_end b)) by auto.
    rewrite (at_blocks_low A (k_end b)); auto. unfold k_end. assert (t - k_off b < length (k_cols b)) by (apply nth_error_Some; congruence). lia.
  - eapply IH; eauto.
Qed.

Lemma stored_incoming (v : signal) t : Forall (fun b => k_cols b <> []) (blocks v) -> ordered 0 (blocks v) ->
  no_cancelling v ->
  at_blocks (flat_map (fun b => from_dense A zero add is_zero (k_ns b) (k_cols b) (k_off b)) (blocks v)) t = None ->
  forall nv, streams_ok nv (blocks v) -> value zero nv v t = zcol nv.
Proof.
  intros Hne Ho Hc Hn nv Hs. rewrite incoming_at in Hn by auto. unfold value. destruct (at_blocks (blocks v) t) as [c|] eqn:E; [|reflexivity].
  destruct (is_zero (colsum A zero add c)) eqn:Ez; [|discriminate]. rewrite (Hc t c E Ez), (at_blocks_len A nv _ _ _ Hs E). reflexivity.
Qed.

Lemma bind_ok' {X Y} (r : result X) (f : X -> result Y) y : bind r f = Ok y -> exists x, r = Ok x /\ f x = Ok y.
Proof. destruct r; cbn; [eauto|discriminate]. Qed.

(** One window of the streams of [x]: its columns if it has any stored. *)
Lemma window_array ns (x : signal) a e r : well_formed ns x -> num_streams x = ns -> a < e ->
  as_array A zero (getitem A zero x (Some (Z.of_nat a)) (Some (Z.of_nat e))) = Ok r -> length (d_cols r) = e - a ->
  d_ns r = ns /\ forall t, a <= t < e -> nth_error (d_cols r) (t - a) = Some (value zero ns x t).
Proof.
  intros Hw Hn Hae E Hl. destruct (getitem_spec ns x (Some a) (Some e) Hw Hn) as [Hw' Hat]. cbn [option_map] in *.
  set (g := getitem A zero x (Some (Z.of_nat a)) (Some (Z.of_nat e))) in *.
  destruct (blocks g) as [|b l] eqn:Eb. { rewrite (as_array_empty g r Eb E) in Hl. cbn in Hl. lia. }
  destruct (as_array_spec ns g r Hw' E) as (H1 & H2 & H3); [congruence|]. split; [auto|]. intros t Ht. rewrite H3 by lia. f_equal.
  unfold value. rewrite Eb, Hat. replace (a + (t - a)) with t by lia. destruct (Nat.ltb_spec t e); [auto|lia].
Qed.

Lemma sp_append_streams_spec ns nv s v r : s <> [] -> well_formed ns (Sparse s) -> well_formed nv v -> num_streams v = nv ->
  Forall (fun b => k_cols b <> []) (blocks v) -> no_cancelling v ->
  sp_append_streams A zero add is_zero s v = Ok r ->
  well_formed (ns + nv) (Sparse r) /\
  forall t, value zero (ns + nv) (Sparse r) t = value zero ns (Sparse s) t ++ value zero nv v t.
Proof.
  intros Hne Hw1 Hw2 Hn2 Hcols Hcan E. pose proof Hw1 as [Hs1 Ho1]. pose proof Hw2 as [Hs2 Ho2]. cbn [blocks] in *.
  unfold sp_append_streams in E. rewrite (sp_ns_ok ns s Hs1 Hne), Hn2 in E.
  set (inc := flat_map (fun b => from_dense A zero add is_zero (k_ns b) (k_cols b) (k_off b)) (blocks v)) in *.
  apply mapM_Forall2_inv in E. set (F := fun t => value zero ns (Sparse s) t ++ value zero nv v t).
  assert (HF : Forall2 (holds A (ns + nv) F) (blocks_union A s inc) r).
  { pose proof (proj1 (union_windows s inc)) as Hg. revert E Hg. generalize 0 as lo. generalize (blocks_union A s inc) as ws. intros ws lo E. revert lo.
    induction E as [|[a e] b ws r Ex E IH]; intros lo Hg; [constructor|]. destruct Hg as (G1 & G2 & G3). constructor; [|eapply IH; eauto].
    cbn [fst snd] in Ex.
    apply bind_ok' in Ex as (x & Ex & Ey). apply bind_ok' in Ey as (y & Ey & Ec). apply bind_ok' in Ec as (c & Ec & Eb).
    unfold stack in Ec. destruct (Nat.eqb_spec (length (d_cols x)) (length (d_cols y))) as [Hxy|]; [|discriminate]. injection Ec as <-.
    unfold new_block in Eb. rewrite map2_length in Eb.
    destruct (Nat.eqb_spec (d_ns x + d_ns y) (ns + nv)) as [Hr|]; [|discriminate]. cbn [andb] in Eb.
    destruct (Nat.eqb_spec (Nat.min (length (d_cols x)) (length (d_cols y))) (e - a)) as [Hc|]; [|discriminate]. injection Eb as <-.
    destruct (window_array ns (Sparse s) a e x Hw1 (sp_ns_ok ns s Hs1 Hne) G2 Ex ltac:(lia)) as [_ Nx].
    destruct (window_array nv v a e y Hw2 Hn2 G2 Ey ltac:(lia)) as [_ Ny].
    unfold holds. cbn [k_off k_cols k_ns fst snd]. split; [auto|]. split; [rewrite map2_length; auto|]. split; [auto|].
    intros t Ht. rewrite nth_error_map2, Nx, Ny by auto. reflexivity. }
  destruct (at_union (ns + nv) F s inc r HF) as [Hw Hat].
  { intros t _. unfold F. rewrite app_length, !value_len; auto. }
  split; [auto|]. intros t. unfold value at 1. cbn [blocks]. rewrite Hat.
  destruct (at_blocks s t) eqn:Es; [reflexivity|]. destruct (at_blocks inc t) eqn:Ei; [reflexivity|].
  rewrite (value_none ns (Sparse s) t Es). rewrite (stored_incoming v t Hcols Ho2 Hcan Ei nv Hs2). unfold Signal_Model.zcol. now rewrite repeat_app.
Qed.

(** Liveness. *)
Lemma gaps_end ws : forall lo a e, gaps lo ws -> In (a, e) ws -> existsb (fun w => (fst w <=? e) && (e <? snd w)) ws = false.
Proof.
  assert (Hhi : forall ws lo k, gaps lo ws -> k < lo -> existsb (fun w => (fst w <=? k) && (k <? snd w)) ws = false).
  { clear. induction ws as [|[x y] ws IH]; intros lo k Hg Hk; [auto|]. cbn in Hg. destruct Hg as (H1 & H2 & H3). cbn [existsb fst snd].
    destruct (Nat.leb_spec x k); [lia|]. cbn. eapply IH; eauto. lia. }
  assert (Hlo : forall ws lo a e, gaps lo ws -> In (a, e) ws -> lo <= a /\ a < e).
  { clear. induction ws as [|[x y] ws IH]; intros lo a e Hg Hin; [destruct Hin|]. cbn in Hg. destruct Hin as [H|H].
    - injection H as <- <-. lia.
    - destruct Hg as (H1 & H2 & H3). destruct (IH _ _ _ H3 H). lia. }
  induction ws as [|[x y] ws IH]; intros lo a e Hg Hin; [destruct Hin|]. cbn in Hg. destruct Hg as (H1 & H2 & H3). cbn [existsb fst snd].
  destruct Hin as [H|H].
  - injection H as <- <-. destruct (Nat.ltb_spec y y); [lia|]. rewrite andb_false_r. cbn [orb]. eapply Hhi; eauto.
  - destruct (Hlo _ _ _ _ H3 H). destruct (Nat.ltb_spec e y); [lia|]. rewrite andb_false_r. cbn [orb]. eapply IH; eauto.
Qed.
Lemma slice_nonempty a e (b b' : block) rows : a < e -> k_cols b <> [] ->
  slice_block A zero rows (Z.of_nat a) (Z.of_nat e) 1 b = [b'] -> k_end b' <= e - a.
Proof.
  intros Hae Hne Eb.
  destruct (slice_block_spec rows a (Z.of_nat e) 1 b ltac:(lia) ltac:(right; left; lia)) as [[E _]|(b2 & E & _ & _ & Hoff & Hat)]; [congruence|].
  rewrite Eb in E. injection E as <-.
  assert (Hpos : 0 < length (k_cols b)) by (destruct (k_cols b); [congruence|cbn; lia]).
  assert (Hc : k_off b < e /\ a < k_end b).
  { unfold slice_block in Eb. destruct (Z.leb_spec (Z.of_nat e) (Z.of_nat (k_off b))); [discriminate|]. destruct (Z.leb_spec (Z.of_nat (k_end b)) (Z.of_nat a)); [discriminate|]. lia. }
  set (m := Nat.max a (k_off b)).
  assert (Hm : at_block b' (m - a) <> None).
  { rewrite Hat. replace (a + (m - a) * 1) with m by (subst m; lia). destruct (Z.ltb_spec (Z.of_nat m) (Z.of_nat e)); [|subst m; lia].
    destruct (at_block b m) eqn:E; [discriminate|]. apply at_block_None in E. subst m. unfold k_end in *. lia. }
  destruct (Nat.le_gt_cases (k_end b') (e - a)) as [|Hgt]; [auto|]. exfalso.
  assert (Hin : k_off b' <= m - a < k_end b').
  { destruct (at_block b' (m - a)) eqn:E; [|congruence]. eapply at_block_Some; eauto. }
  assert (H : at_block b' (k_end b' - 1) <> None) by (rewrite at_block_None; unfold k_end in *; lia). apply H. rewrite Hat.
  destruct (Z.ltb_spec (Z.of_nat (a + (k_end b' - 1) * 1)) (Z.of_nat e)); [lia|auto].
Qed.
Lemma window_samples ns (x : signal) a e : well_formed ns x -> num_streams x = ns -> a < e -> Forall (fun b => k_cols b <> []) (blocks x) ->
  at_blocks (blocks x) (e - 1) <> None ->
  num_samples (getitem A zero x (Some (Z.of_nat a)) (Some (Z.of_nat e))) = e - a.
Proof.
  intros Hw Hn Hae Hne Hst. destruct (getitem_spec ns x (Some a) (Some e) Hw Hn) as [Hw' Hat]. cbn [option_map] in *.
  apply Nat.le_antisymm.
  - pose proof (num_max _ (proj2 Hw')) as Hm. rewrite <- Hm. apply list_max_le. apply Forall_forall. intros k Hk. apply in_map_iff in Hk as (b' & <- & Hb').
    destruct x as [d|s].
    + cbn [getitem blocks dn_getitem d_ns d_cols] in Hb'. destruct Hb' as [<-|[]]. unfold k_end. cbn [k_off k_cols]. unfold resolve. destruct (Z.ltb_spec (Z.of_nat a) 0), (Z.ltb_spec (Z.of_nat e) 0); try lia.
      rewrite length_slice. lia.
    + cbn [getitem] in Hb'. rewrite sp_getitem_blocks in Hb'. apply in_flat_map in Hb' as (b & Hb & Hb'). rewrite Forall_forall in Hne.
      assert (Es : exists b2, slice_block A zero (all_streams A (Sparse s)) (Z.of_nat a) (Z.of_nat e) 1 b = [b2]).
      { unfold slice_block in *. destruct (_ || _); [destruct Hb'|]. eauto. }
      destruct Es as (b2 & Es). rewrite Es in Hb'. destruct Hb' as [<-|[]]. eapply slice_nonempty; [exact Hae| |exact Es]. apply Hne. auto.
  - destruct (at_blocks (blocks (getitem A zero x (Some (Z.of_nat a)) (Some (Z.of_nat e)))) (e - 1 - a)) eqn:E.
    + apply (at_num_samples ns) in E; [|auto]. lia.
    + rewrite Hat in E. replace (a + (e - 1 - a)) with (e - 1) in E by lia. destruct (Nat.ltb_spec (e - 1) e); [congruence|lia].
Qed.
Lemma sp_append_streams_live ns nv s v : s <> [] -> well_formed ns (Sparse s) -> well_formed nv v -> num_streams v = nv ->
  Forall (fun b => k_cols b <> []) s -> Forall (fun b => k_cols b <> []) (blocks v) ->
  (forall t, let stored t := at_blocks s t <> None \/ (exists c, at_blocks (blocks v) t = Some c /\ is_zero (colsum A zero add c) = false) in
     stored t -> ~ stored (S t) -> at_blocks s t <> None /\ at_blocks (blocks v) t <> None) ->
  exists r, sp_append_streams A zero add is_zero s v = Ok r.
Proof.
  intros Hne Hw1 Hw2 Hn2 Hc1 Hc2 Hst. pose proof Hw1 as [Hs1 Ho1]. pose proof Hw2 as [Hs2 Ho2]. cbn [blocks] in *.
  unfold sp_append_streams. rewrite (sp_ns_ok ns s Hs1 Hne), Hn2.
  set (inc := flat_map (fun b => from_dense A zero add is_zero (k_ns b) (k_cols b) (k_off b)) (blocks v)) in *.
  destruct (union_windows s inc) as [Hg Hex].
  assert (Hstored : forall t, existsb (fun w => (fst w <=? t) && (t <? snd w)) (blocks_union A s inc) = true <->
            at_blocks s t <> None \/ (exists c, at_blocks (blocks v) t = Some c /\ is_zero (colsum A zero add c) = false)).
  { intros t. rewrite Hex. unfold inc. rewrite incoming_at by auto.
    assert (H : (match at_blocks (blocks v) t with Some c => if is_zero (colsum A zero add c) then None else Some c | None => None end <> None) <->
               (exists c, at_blocks (blocks v) t = Some c /\ is_zero (colsum A zero add c) = false)).
    { destruct (at_blocks (blocks v) t) as [c|]; [|split; [congruence|intros (c & H & _); discriminate]].
      destruct (is_zero (colsum A zero add c)) eqn:Ez; split; try congruence.
      - intros (c' & H & H'). injection H as <-. congruence.
      - eauto. }
    rewrite H. reflexivity. }
  edestruct (mapM_Forall2 (fun w =>
          do x <- as_array A zero (getitem A zero (Sparse s) (Some (Z.of_nat (fst w))) (Some (Z.of_nat (snd w))));
          do y <- as_array A zero (getitem A zero v (Some (Z.of_nat (fst w))) (Some (Z.of_nat (snd w))));
          do c <- stack A x y;
          new_block A (fst w) (ns + nv) (snd w - fst w) (d_ns x + d_ns y) c) (fun _ _ => True) (blocks_union A s inc)) as (r & Er & _).
  { intros [a e] Hin. cbn [fst snd]. pose proof (gaps_lt _ _ _ _ Hg Hin) as Hae.
    assert (He : at_blocks s (e - 1) <> None /\ at_blocks (blocks v) (e - 1) <> None).
    { apply (Hst (e - 1)).
      - apply Hstored, existsb_window. exists a, e. split; [auto|lia].
      - replace (S (e - 1)) with e by lia. intros Hs. apply Hstored in Hs. rewrite (gaps_end _ _ _ _ Hg Hin) in Hs. discriminate. }
    destruct He as [He1 He2].
    pose proof (window_samples ns (Sparse s) a e Hw1 (sp_ns_ok ns s Hs1 Hne) Hae Hc1 He1) as W1.
    pose proof (window_samples nv v a e Hw2 Hn2 Hae Hc2 He2) as W2.
    assert (G : forall m (x : signal), well_formed m x -> num_streams x = m -> num_samples (getitem A zero x (Some (Z.of_nat a)) (Some (Z.of_nat e))) = e - a ->
              exists d, as_array A zero (getitem A zero x (Some (Z.of_nat a)) (Some (Z.of_nat e))) = Ok d /\ d_ns d = m /\ length (d_cols d) = e - a).
    { intros m x Hw Hn Hl. destruct (getitem_spec m x (Some a) (Some e) Hw Hn) as [Hw' _]. cbn [option_map] in Hw'.
      destruct (as_array_ok m _ Hw') as (d & Ed). exists d. split; [auto|].
      destruct (as_array_spec m _ d Hw' Ed) as (H1 & H2 & _); [|split; [auto|lia]].
      intros Eb. destruct (getitem A zero x (Some (Z.of_nat a)) (Some (Z.of_nat e))) as [?|l]; [discriminate|]. cbn in Eb. subst l. cbn in Hl. lia. }
    destruct (G ns (Sparse s) Hw1 (sp_ns_ok ns s Hs1 Hne) W1) as (x & Ex & X1 & X2). destruct (G nv v Hw2 Hn2 W2) as (y & Ey & Y1 & Y2).
    rewrite Ex. cbn [bind]. rewrite Ey. cbn [bind]. unfold stack. rewrite X2, Y2, Nat.eqb_refl. cbn [bind]. unfold new_block. rewrite map2_length, X1, Y1, X2, Y2, Nat.min_id, !Nat.eqb_refl.
    cbn [andb]. eauto. }
  rewrite Er. eauto.
Qed.

Lemma from_dense_end ns cols b : cols <> [] -> In b (from_dense A zero add is_zero ns cols 0) -> k_end b <= length cols.
Proof.
  intros Hne Hb. pose proof (from_dense_holds A zero add is_zero ns cols 0 Hne) as HF.
  pose proof (windows_props _ (sorted_filter_seq (fun t => negb (is_zero (colsum A zero add (nth t cols [])))) (length cols) 0)) as [Hg Hin].
  fold (nonzero_cols A zero add is_zero cols) in *.
  apply In_nth_error in Hb as [i Hi].
  assert (Hw : exists w, In w (windows (nonzero_cols A zero add is_zero cols)) /\ holds A ns (fun t => nth (t - 0) cols []) (0 + fst w, 0 + snd w) b).
  { clear Hg Hin. revert i Hi. revert HF. generalize (windows (nonzero_cols A zero add is_zero cols)) as ws. generalize (from_dense A zero add is_zero ns cols 0) as bs.
    intros bs ws. revert bs. induction ws as [|w ws IH]; intros bs HF i Hi; inversion HF; subst; [destruct i; discriminate|].
    destruct i as [|i]; cbn in Hi; [injection Hi as <-; exists w; split; [left; auto|auto]|].
    edestruct IH as (w' & H1' & H2'); eauto. exists w'. split; [right; auto|auto]. }
  destruct Hw as ([a e] & Hw & H1 & H2 & _). cbn [fst snd Nat.add] in *.
  pose proof (gaps_lt _ _ _ _ Hg Hw) as Hae.
  assert (Hl : In (e - 1) (nonzero_cols A zero add is_zero cols)) by (apply Hin; exists a, e; split; [auto|lia]).
  apply in_nonzero in Hl as [Hl _]. unfold k_end. lia.
Qed.
Lemma roundtrip_spec ns cols : Forall (fun c => length c = ns) cols -> Exists (fun c => c <> zcol ns) cols ->
  no_cancelling (Dense (mkD ns cols)) ->
  exists d k, to_dense A zero (from_dense A zero add is_zero ns cols 0) = Ok d /\ d_ns d = ns /\
    d_cols d = firstn k cols /\ Forall (fun c => c = zcol ns) (skipn k cols).
Proof.
  intros Hl Hex Hcan. assert (Hne : cols <> []) by (intros ->; inversion Hex).
  set (s := from_dense A zero add is_zero ns cols 0).
  destruct (from_dense_wf A zero add is_zero ns cols 0 Hl) as [Hs Ho]. fold s in Hs, Ho.
  assert (Hat : forall t, at_blocks s t = match nth_error cols t with Some c => if is_zero (colsum A zero add c) then None else Some c | None => None end).
  { intros t. unfold s. rewrite from_dense_at by auto. cbn [Nat.leb]. now rewrite Nat.sub_0_r. }
  assert (Hc : forall t c, nth_error cols t = Some c -> is_zero (colsum A zero add c) = true -> c = zcol ns).
  { intros t c Ht Hz. assert (Hlc : length c = ns) by (rewrite Forall_forall in Hl; apply Hl; eapply nth_error_In; eauto).
    rewrite <- Hlc. apply (Hcan t c); [|exact Hz]. cbn [blocks at_blocks]. unfold at_block. cbn [k_off k_cols Nat.leb d_cols]. rewrite Nat.sub_0_r, Ht. auto. }
  assert (Hsne : s <> []).
  { apply Exists_exists in Hex as (c & Hin & Hcz). apply In_nth_error in Hin as [t Ht]. intros E. specialize (Hat t). rewrite E, Ht in Hat. cbn in Hat.
    destruct (is_zero (colsum A zero add c)) eqn:Ez; [|discriminate]. apply Hcz. eapply Hc; eauto. }
  destruct (to_dense_spec A zero ns s (conj Hs Ho) Hsne) as (d & Ed & H1 & H2 & H3).
  assert (Hk : sp_n s <= length cols).
  { change (sp_n s) with (num_samples (Sparse s)). rewrite <- num_max by exact Ho. apply list_max_le. apply Forall_forall. intros k Hk.
    apply in_map_iff in Hk as (b & <- & Hb). eapply from_dense_end; eauto. }
  exists d, (sp_n s). split; [auto|]. split; [auto|]. split.
  - apply nth_error_ext. intros t. rewrite nth_error_firstn. destruct (Nat.ltb_spec t (sp_n s)) as [Hlt|Hge].
    + rewrite H3 by auto. unfold value. cbn [blocks]. rewrite Hat. destruct (nth_error cols t) as [c|] eqn:Et; [|apply nth_error_None in Et; lia].
      destruct (is_zero (colsum A zero add c)) eqn:Ez; [|auto]. rewrite (Hc t c Et Ez). auto.
    + apply nth_error_None. lia.
  - apply Forall_forall. intros c Hin. apply In_nth_error in Hin as [i Hi]. rewrite nth_error_skipn in Hi.
    destruct (is_zero (colsum A zero add c)) eqn:Ez; [eapply Hc; eauto|]. exfalso.
    specialize (Hat (sp_n s + i)). rewrite Hi, Ez in Hat. apply at_blocks_lt in Hat; [lia|auto].
Qed.
End S.
