From Coq Require Import List Arith Bool Lia ZArith.
From Verif Require Import Base BaseLemmas Grid_Model Grid_Spec.
Import ListNotations.

Lemma sum_app a b : sum (a ++ b) = sum a + sum b.
Proof. induction a; cbn; lia. Qed.

Lemma count_sel_app a b : count_sel (a ++ b) = count_sel a + count_sel b.
Proof. unfold count_sel. rewrite filter_app, app_length. lia. Qed.

Lemma count_sel_cons b l : count_sel (b :: l) = (if b then 1 else 0) + count_sel l.
Proof. destruct b; reflexivity. Qed.

Lemma etype_eqb_refl t : etype_eqb t t = true.
Proof. destruct t; reflexivity. Qed.
Lemma etype_eqb_eq a b : etype_eqb a b = true -> a = b.
Proof. destruct a, b; cbn; congruence. Qed.

Lemma length_res_mask r : length (res_mask r) = res_subcarriers r.
Proof.
  unfold res_mask, res_subcarriers.
  assert (H : length (concat (map (fun e => repeat (e_type e) (e_reps e)) (r_elems r)))
              = sum (map e_reps (r_elems r))).
  { induction (r_elems r) as [|e l IH]; [reflexivity|]. cbn.
    rewrite app_length, repeat_length. lia. }
  induction (r_reps r) as [|n IH]; [reflexivity|]. cbn. rewrite app_length, IH, H. reflexivity.
Qed.

Lemma concat_repeat_map {B C} (f : B -> C) (l : list B) n :
  map f (concat (repeat l n)) = concat (repeat (map f l) n).
Proof. induction n; [reflexivity|]. cbn. rewrite map_app, IHn. reflexivity. Qed.

Lemma count_sel_repeat_concat l n : count_sel (concat (repeat l n)) = n * count_sel l.
Proof. induction n; [reflexivity|]. cbn [repeat concat]. rewrite count_sel_app, IHn. lia. Qed.

Lemma count_sel_repeat b n : count_sel (repeat b n) = if b then n else 0.
Proof. induction n; cbn [repeat]; [destruct b; reflexivity|]. rewrite count_sel_cons, IHn. destruct b; lia. Qed.

Lemma map_repeat' {B C} (f : B -> C) x n : map f (repeat x n) = repeat (f x) n.
Proof. induction n; cbn; congruence. Qed.

Lemma count_res_mask ty r :
  count_sel (map (is_type ty) (map Some (res_mask r))) = res_count ty r.
Proof.
  unfold res_mask, res_count. rewrite map_map, concat_repeat_map, count_sel_repeat_concat. f_equal.
  induction (r_elems r) as [|e l IH]; [reflexivity|]. cbn [map concat sum].
  rewrite map_app, count_sel_app, IH, map_repeat', count_sel_repeat. reflexivity.
Qed.

Lemma list_max0_ge l x : In x l -> x <= list_max0 l.
Proof. induction l; cbn; [tauto|]. intros [->|H]; [lia|]. specialize (IHl H). unfold list_max0 in IHl. lia. Qed.

(** *** Shapes of masks *)
Section P.
Context {A : Type} (zero junk : A).
Notation wave := (@wave A).
Notation section := (@section A).

Lemma Forall_concat_repeat {B} (P : B -> Prop) l n : Forall P l -> Forall P (concat (repeat l n)).
Proof. intro H. induction n; [constructor|]. cbn. apply Forall_app. auto. Qed.

Lemma length_concat_repeat {B} (l : list B) n : length (concat (repeat l n)) = n * length l.
Proof. induction n; [reflexivity|]. cbn. rewrite app_length, IHn. reflexivity. Qed.

Lemma sec_mask_shape (w : wave) s : shape (sec_words s) (sec_subcarriers w s) (sec_mask w s).
Proof.
  destruct s as [reps pat off|n|e].
  - split.
    + cbn [sec_mask sec_words]. rewrite length_concat_repeat, map_length. reflexivity.
    + cbn [sec_mask]. apply Forall_concat_repeat. apply Forall_forall. intros r Hr.
      apply in_map_iff in Hr as (i & <- & Hi).
      rewrite app_length, map_length, repeat_length, length_res_mask.
      assert (res_subcarriers (res_at w i) <= sec_subcarriers w (SymSec reps pat off)).
      { cbn [sec_subcarriers]. apply list_max0_ge.
        apply (in_map (fun i => res_subcarriers (res_at w i))). exact Hi. }
      lia.
  - split; [reflexivity|constructor].
  - split; [reflexivity|]. cbn. constructor; [apply repeat_length|constructor].
Qed.

Lemma length_concat_shape {B} words width (g : list (list B)) :
  shape words width g -> length (concat g) = words * width.
Proof. intros [<- H]. rewrite (length_concat_const width); [lia|exact H]. Qed.

Lemma count_rows ty (row : nat -> list (option etype)) f pat reps :
  (forall i, count_sel (map (is_type ty) (row i)) = f i) ->
  count_sel (map (is_type ty) (concat (concat (repeat (map row pat) reps)))) = reps * sum (map f pat).
Proof.
  intro Hrow.
  assert (H : forall p, count_sel (map (is_type ty) (concat (map row p))) = sum (map f p)).
  { induction p as [|i p IH]; [reflexivity|]. cbn [map concat sum].
    rewrite map_app, count_sel_app, IH, Hrow. reflexivity. }
  induction reps as [|k IH]; [reflexivity|]. cbn [repeat concat].
  rewrite concat_app, map_app, count_sel_app, IH, H. lia.
Qed.

Lemma count_mask_sym ty (w : wave) reps pat off :
  count_sel (sel_of ty (sec_mask w (SymSec reps pat off)))
  = reps * sum (map (fun i => res_count ty (res_at w i)) pat).
Proof.
  unfold sel_of. cbn [sec_mask]. apply count_rows. intro i.
  rewrite map_app, count_sel_app, count_res_mask, map_repeat', count_sel_repeat. cbn. lia.
Qed.

Lemma count_mask_data (w : wave) s : count_sel (sel_of DATA (sec_mask w s)) = sec_symbols w s.
Proof.
  destruct s as [reps pat off|n|e].
  - apply count_mask_sym.
  - reflexivity.
  - unfold sel_of. cbn [sec_mask concat]. rewrite app_nil_r, map_repeat', count_sel_repeat. reflexivity.
Qed.

(** The number of references a section really contains. *)
Definition actual_refs (w : wave) (s : section) : nat :=
  match s with PilotSec _ => w_sub w | _ => sec_references w s end.

Lemma count_mask_ref (w : wave) s :
  count_sel (sel_of REFERENCE (sec_mask w s)) = actual_refs w s.
Proof.
  destruct s as [reps pat off|n|e].
  - apply count_mask_sym.
  - reflexivity.
  - unfold sel_of. cbn [sec_mask concat]. rewrite app_nil_r, map_repeat', count_sel_repeat. reflexivity.
Qed.

(** *** scatter and gather *)
Lemma length_scatter sel : forall vals base : list A,
  length (scatter sel vals base) = length base.
Proof.
  induction sel as [|[] s IH]; intros vals [|b bs]; cbn [scatter]; auto.
  - destruct vals; cbn [length]; rewrite IH; reflexivity.
  - cbn [length]. rewrite IH. reflexivity.
Qed.

Lemma gather_scatter sel : forall vals base : list A,
  length sel = length base -> length vals = count_sel sel ->
  gather sel (scatter sel vals base) = vals.
Proof.
  induction sel as [|[] s IH]; intros vals [|b bs] Hl Hv; cbn [length] in Hl; try discriminate.
  - destruct vals; [reflexivity|discriminate].
  - rewrite count_sel_cons in Hv. destruct vals as [|v vs]; [cbn in Hv; lia|].
    cbn [scatter gather]. rewrite IH; [reflexivity|lia|cbn in Hv; lia].
  - rewrite count_sel_cons in Hv. cbn [scatter gather]. apply IH; [lia|exact Hv].
Qed.

Lemma gather_scatter_other {B} (p q : B -> bool) (Hpq : forall o, p o = true -> q o = false) m :
  forall vals base : list A,
  gather (map q m) (scatter (map p m) vals base) = gather (map q m) base.
Proof.
  induction m as [|o m IH]; intros vals [|b bs]; [reflexivity..| |].
  - cbn [map]. destruct (p o), (q o); reflexivity.
  - cbn [map]. destruct (p o) eqn:Ep.
    + rewrite (Hpq _ Ep). cbn [scatter]. destruct vals; cbn [gather]; apply IH.
    + cbn [scatter]. destruct (q o); cbn [gather]; [f_equal|]; apply IH.
Qed.

Lemma gather_app s1 : forall s2 (b1 b2 : list A), length s1 = length b1 ->
  gather (s1 ++ s2) (b1 ++ b2) = gather s1 b1 ++ gather s2 b2.
Proof.
  induction s1 as [|[] s IH]; intros s2 [|b bs] b2 H; cbn [length] in H; try discriminate.
  - reflexivity.
  - cbn [app gather]. rewrite IH; [reflexivity|lia].
  - cbn [app gather]. rewrite IH; [reflexivity|lia].
Qed.

Lemma gather_none {B} (q : B -> bool) m : forall base : list A,
  Forall (fun o => q o = false) m -> gather (map q m) base = [].
Proof.
  induction m as [|o m IH]; intros [|b bs] H; [reflexivity..| |].
  - inversion H; subst. cbn. destruct (q o); reflexivity.
  - inversion H; subst. cbn [map]. rewrite H2. cbn [gather]. apply IH. assumption.
Qed.

Lemma length_gather sel : forall base : list A, length sel = length base ->
  length (gather sel base) = count_sel sel.
Proof.
  induction sel as [|[] s IH]; intros [|b bs] H; cbn [length] in H; try discriminate.
  - reflexivity.
  - rewrite count_sel_cons. cbn [gather length]. rewrite IH; lia.
  - rewrite count_sel_cons. cbn [gather length]. rewrite IH; lia.
Qed.

(** Entries neither selected as data nor as reference keep their value. *)
Definition blank (o : option etype) (x : A) : Prop :=
  is_type DATA o = false -> is_type REFERENCE o = false -> x = zero.

Lemma blank_zero m : Forall2 blank m (repeat zero (length m)).
Proof. induction m; cbn; constructor; [intros _ _; reflexivity|assumption]. Qed.

Lemma blank_scatter ty m : ty = DATA \/ ty = REFERENCE -> forall vals base,
  Forall2 blank m base -> Forall2 blank m (scatter (map (is_type ty) m) vals base).
Proof.
  intros Hty. induction m as [|o m IH]; intros vals base H; inversion H; subst; [constructor|].
  cbn [map]. destruct (is_type ty o) eqn:E.
  - cbn [scatter]. destruct vals as [|v vs].
    + constructor; [assumption|]. apply IH. assumption.
    + constructor; [|apply IH; assumption]. intros N1 N2.
      destruct Hty; subst; congruence.
  - cbn [scatter]. constructor; [assumption|apply IH; assumption].
Qed.

Lemma masked_assign_exact sel (vals base : list A) :
  length vals = count_sel sel -> masked_assign sel vals base = Ok (scatter sel vals base).
Proof. intro H. unfold masked_assign. rewrite H, Nat.eqb_refl. reflexivity. Qed.

(** *** One section *)
Lemma ceil_div_mul n k : 0 < k -> n <= k * ceil_div n k.
Proof. intro H. pose proof (ceil_div_spec n k H) as [H1 _]. lia. Qed.

Lemma length_pilot_sequence (w : wave) e n :
  (forall k, length (w_rand w k) = k) -> e <> Some [] -> length (pilot_sequence w e n) = n.
Proof.
  intros Hr He. unfold pilot_sequence. destruct e as [l|].
  - rewrite firstn_length, length_concat_repeat.
    assert (0 < length l) by (destruct l; [congruence|cbn; lia]).
    pose proof (ceil_div_mul n (length l) H). lia.
  - rewrite firstn_length, Hr. lia.
Qed.

(** The references placed into a section. *)
Definition refs_in (w : wave) (s : section) (refs : list A) : list A :=
  match s with PilotSec e => pilot_sequence w e (w_sub w) | _ => refs end.
Definition sec_ok (s : section) : Prop :=
  match s with PilotSec (Some []) => False | _ => True end.

Lemma length_refs_in (w : wave) s refs :
  (forall k, length (w_rand w k) = k) -> sec_ok s -> length refs = sec_references w s ->
  length (refs_in w s refs) = actual_refs w s.
Proof.
  intros Hr Hs Hl. destruct s as [reps pat off|n|e]; cbn [refs_in actual_refs]; [exact Hl..|].
  apply length_pilot_sequence; [exact Hr|]. intros ->. exact Hs.
Qed.

Lemma shape_blocks_of {B} n k (g : list B) : length g = n * k -> shape n k (blocks_of n k g).
Proof.
  intro H. split; [apply length_blocks_of|].
  rewrite Forall_forall. intros r Hr. pose proof (blocks_of_all_len n k g) as HH.
  rewrite Forall_forall in HH. apply HH; [lia|exact Hr].
Qed.

Lemma place_symbols_spec (w : wave) s data refs :
  (forall k, length (w_rand w k) = k) -> sec_ok s ->
  length data = sec_symbols w s -> length refs = sec_references w s ->
  exists g, place_symbols zero w s data refs = Ok g
    /\ shape (sec_words s) (sec_subcarriers w s) g
    /\ gather (sel_of DATA (sec_mask w s)) (concat g) = data
    /\ gather (sel_of REFERENCE (sec_mask w s)) (concat g) = refs_in w s refs
    /\ Forall2 blank (concat (sec_mask w s)) (concat g).
Proof.
  intros Hr Hs Hd Hf. unfold place_symbols.
  change (match s with PilotSec e => pilot_sequence w e (w_sub w) | _ => refs end)
    with (refs_in w s refs).
  pose proof (sec_mask_shape w s) as Hm. pose proof (length_concat_shape _ _ _ Hm) as Hlm.
  pose proof (length_refs_in w s refs Hr Hs Hf) as Hlr.
  set (z := repeat zero (sec_words s * sec_subcarriers w s)).
  assert (Hz : length z = length (concat (sec_mask w s))) by (unfold z; rewrite repeat_length; lia).
  cbv zeta. rewrite masked_assign_exact by (rewrite count_mask_ref; exact Hlr).
  cbn [bind]. rewrite masked_assign_exact by (rewrite count_mask_data; exact Hd).
  cbn [bind]. eexists. split; [reflexivity|].
  set (g1 := scatter (sel_of REFERENCE (sec_mask w s)) (refs_in w s refs) z).
  set (g2 := scatter (sel_of DATA (sec_mask w s)) data g1).
  assert (L1 : length g1 = length (concat (sec_mask w s))).
  { unfold g1. rewrite length_scatter. exact Hz. }
  assert (L2 : length g2 = sec_words s * sec_subcarriers w s).
  { unfold g2. rewrite length_scatter. lia. }
  assert (C : concat (blocks_of (sec_words s) (sec_subcarriers w s) g2) = g2).
  { rewrite concat_blocks_of. apply firstn_all2. lia. }
  split; [apply shape_blocks_of; exact L2|]. rewrite C. split; [|split].
  - unfold g2. apply gather_scatter; [unfold sel_of; rewrite map_length; lia|].
    rewrite count_mask_data. exact Hd.
  - unfold g2, sel_of. rewrite gather_scatter_other.
    + unfold g1. apply gather_scatter; [unfold sel_of; rewrite map_length; lia|].
      rewrite count_mask_ref. exact Hlr.
    + intros [[]|]; cbn; congruence.
  - unfold g2, sel_of. apply blank_scatter; [auto|]. unfold g1, sel_of. apply blank_scatter; [auto|].
    unfold z. rewrite <- Hlm. apply blank_zero.
Qed.

(** *** Padding a section to the width of the frame *)
Lemma gather_pad (q : option etype -> bool) (Hq : q None = false) k : forall m (g : list (list A)),
  Forall2 (fun a b => length a = length b) m g ->
  gather (map q (concat (map (fun r => r ++ repeat None k) m)))
         (concat (map (fun r => r ++ repeat zero k) g))
  = gather (map q (concat m)) (concat g).
Proof.
  induction m as [|a m IH]; intros g H; inversion H; subst; [reflexivity|].
  cbn [map concat]. rewrite !map_app, <- !app_assoc.
  rewrite !(gather_app (map q a)) by (rewrite map_length; assumption).
  rewrite (gather_app (map q (repeat None k))) by (rewrite map_length, !repeat_length; reflexivity).
  rewrite (gather_none q (repeat None k)).
  - cbn [app]. f_equal. apply IH. assumption.
  - apply Forall_forall. intros o Ho. apply repeat_spec in Ho. subst. exact Hq.
Qed.

Lemma blank_pad k : forall m (g : list (list A)),
  Forall2 (fun a b => length a = length b) m g ->
  Forall2 blank (concat m) (concat g) ->
  Forall2 blank (concat (map (fun r => r ++ repeat None k) m))
                (concat (map (fun r => r ++ repeat zero k) g)).
Proof.
  induction m as [|a m IH]; intros g H HB; inversion H as [|a0 y m0 l' Hay Hml E1 E2]; subst; [constructor|].
  cbn [map concat] in *.
  apply Forall2_app_inv_l in HB as (g1 & g2 & B1 & B2 & E).
  assert (L : length g1 = length a) by (symmetry; exact (Forall2_len _ _ _ B1)).
  assert (y = g1 /\ concat l' = g2) as [-> <-].
  { assert (F : firstn (length a) (y ++ concat l') = firstn (length a) (g1 ++ g2)) by congruence.
    assert (S : skipn (length a) (y ++ concat l') = skipn (length a) (g1 ++ g2)) by congruence.
    rewrite !firstn_app in F. rewrite !skipn_app in S.
    rewrite (firstn_all2 y), (firstn_all2 g1) in F by lia.
    rewrite (skipn_all2 y), (skipn_all2 g1) in S by lia.
    replace (length a - length y) with 0 in * by lia.
    replace (length a - length g1) with 0 in * by lia. cbn in F, S.
    rewrite !app_nil_r in F. auto. }
  apply Forall2_app; [|apply IH; assumption].
  apply Forall2_app; [assumption|].
  clear. induction k; cbn; constructor; [intros _ _; reflexivity|assumption].
Qed.

Lemma shape_pad {B} (d : B) a b k (g : list (list B)) :
  shape a b g -> shape a (b + k) (map (fun r => r ++ repeat d k) g).
Proof.
  intros [H1 H2]. split; [rewrite map_length; exact H1|].
  rewrite Forall_map. revert H2. apply Forall_impl. intros r Hr.
  rewrite app_length, repeat_length. lia.
Qed.

Lemma shape_app {B} a1 a2 b (g1 g2 : list (list B)) :
  shape a1 b g1 -> shape a2 b g2 -> shape (a1 + a2) b (g1 ++ g2).
Proof.
  intros [H1 H2] [H3 H4]. split; [rewrite app_length; lia|]. apply Forall_app. auto.
Qed.

Lemma shape_Forall2 {B C} a b (g1 : list (list B)) (g2 : list (list C)) :
  shape a b g1 -> shape a b g2 -> Forall2 (fun x y => length x = length y) g1 g2.
Proof.
  intros [H1 H2] [H3 H4]. revert a g2 H1 H3 H4.
  induction H2 as [|x l Hx Hl IH]; intros a [|y g2] H1 H3 H4; cbn in *; try (constructor || lia).
  - inversion H4; congruence.
  - inversion H4. eapply IH with (a := length l); [reflexivity|lia|assumption].
Qed.

(** *** Whole frames *)
Definition frame_refs_aux (w : wave) : list section -> list A -> list A :=
  fix go l refs :=
    match l with
    | [] => []
    | s :: t => refs_in w s (firstn (sec_references w s) refs) ++ go t (skipn (sec_references w s) refs)
    end.

Lemma masks_spec (w : wave) : forall l,
  Forall (fun s => sec_subcarriers w s <= w_sub w) l ->
  exists m, masks w l = Ok m /\ shape (sum (map sec_words l)) (w_sub w) m
    /\ count_sel (sel_of DATA m) = sum (map (sec_symbols w) l)
    /\ count_sel (sel_of REFERENCE m) = sum (map (actual_refs w) l).
Proof.
  induction l as [|s l IH]; intro H.
  - exists []. repeat split; constructor.
  - inversion H as [|? ? Hs Hl]; subst. destruct (IH Hl) as (m & Em & Sm & C1 & C2).
    cbn [masks]. destruct (Nat.ltb_spec (w_sub w) (sec_subcarriers w s)); [lia|].
    rewrite Em. cbn [bind]. eexists. split; [reflexivity|].
    assert (G : forall ty, count_sel (sel_of ty (map (fun r => r ++ repeat None
       (w_sub w - sec_subcarriers w s)) (sec_mask w s))) = count_sel (sel_of ty (sec_mask w s))).
    { intro ty. unfold sel_of. induction (sec_mask w s) as [|r t IHr]; [reflexivity|].
      cbn [map concat]. rewrite !map_app, !count_sel_app, IHr, map_repeat', count_sel_repeat. cbn. lia. }
    split; [|split].
    + cbn [map sum]. apply shape_app; [|exact Sm].
      replace (w_sub w) with (sec_subcarriers w s + (w_sub w - sec_subcarriers w s)) at 1 by lia.
      apply shape_pad, sec_mask_shape.
    + unfold sel_of in *. rewrite concat_app, map_app, count_sel_app, C1. cbn [map sum].
      f_equal. rewrite <- (count_mask_data w s). apply (G DATA).
    + unfold sel_of in *. rewrite concat_app, map_app, count_sel_app, C2. cbn [map sum].
      f_equal. rewrite <- (count_mask_ref w s). apply (G REFERENCE).
Qed.

Lemma masks_fit (w : wave) : forall l m, masks w l = Ok m ->
  Forall (fun s => sec_subcarriers w s <= w_sub w) l.
Proof.
  induction l as [|s l IH]; intros m H; [constructor|]. cbn [masks] in H.
  destruct (Nat.ltb_spec (w_sub w) (sec_subcarriers w s)); [discriminate|].
  destruct (masks w l) as [m'|]; [|discriminate]. constructor; [assumption|]. eapply IH; reflexivity.
Qed.

Lemma place_sections_spec (w : wave) :
  (forall k, length (w_rand w k) = k) -> forall l data refs,
  Forall sec_ok l ->
  length data = sum (map (sec_symbols w) l) -> length refs = sum (map (sec_references w) l) ->
  Forall (fun s => sec_subcarriers w s <= w_sub w) l ->
  exists g m, place_sections zero w l data refs = Ok g /\ masks w l = Ok m
    /\ shape (sum (map sec_words l)) (w_sub w) g
    /\ gather (sel_of DATA m) (concat g) = data
    /\ gather (sel_of REFERENCE m) (concat g) = frame_refs_aux w l refs
    /\ Forall2 blank (concat m) (concat g)
    /\ pick_sections w l g = Ok data.
Proof.
  intro Hr. induction l as [|s l IH]; intros data refs Hok Hd Hf Hfit.
  - exists [], []. cbn. destruct data; [|discriminate]. repeat split; constructor.
  - inversion Hok as [|? ? Hs Hl]; subst. inversion Hfit as [|? ? Fs Fl]; subst.
    cbn [map sum] in Hd, Hf.
    destruct (place_symbols_spec w s (firstn (sec_symbols w s) data)
                (firstn (sec_references w s) refs) Hr Hs) as (g & Eg & Sg & Gd & Gr & Gb);
      [rewrite firstn_length; lia..|].
    destruct (IH (skipn (sec_symbols w s) data) (skipn (sec_references w s) refs) Hl)
      as (g' & m' & Eg' & Em' & Sg' & Gd' & Gr' & Gb' & Ep'); [rewrite skipn_length; lia..|exact Fl|].
    cbn [place_sections masks]. rewrite Eg, Eg', Em'. cbn [bind].
    destruct (Nat.ltb_spec (w_sub w) (sec_subcarriers w s)); [lia|]. cbn [bind].
    pose proof (sec_mask_shape w s) as Sm.
    pose proof (shape_Forall2 _ _ _ _ Sm Sg) as F2.
    set (k := w_sub w - sec_subcarriers w s).
    pose proof (shape_pad zero _ _ k g Sg) as Spg.
    pose proof (shape_pad (@None etype) _ _ k _ Sm) as Spm.
    replace (sec_subcarriers w s + k) with (w_sub w) in * by lia.
    eexists _, _. split; [reflexivity|]. split; [reflexivity|].
    split; [cbn [map sum]; apply shape_app; assumption|].
    assert (GA : forall ty, gather (sel_of ty (map (fun r => r ++ repeat None k) (sec_mask w s) ++ m'))
        (concat (map (fun r => r ++ repeat zero k) g ++ g'))
        = gather (sel_of ty (sec_mask w s)) (concat g) ++ gather (sel_of ty m') (concat g')).
    { intro ty. unfold sel_of. rewrite !concat_app, map_app, gather_app.
      - f_equal. apply gather_pad; [reflexivity|exact F2].
      - rewrite map_length, (length_concat_shape _ _ _ Spm), (length_concat_shape _ _ _ Spg).
        reflexivity. }
    rewrite !GA, Gd, Gr, Gd', Gr'. split; [apply firstn_skipn|]. split; [reflexivity|].
    split.
    + rewrite !concat_app. apply Forall2_app; [|exact Gb']. apply blank_pad; assumption.
    + cbn [pick_sections]. destruct Spg as [L1 L2].
      assert (Hfn : firstn (sec_words s) (map (fun r => r ++ repeat zero k) g ++ g')
                    = map (fun r => r ++ repeat zero k) g).
      { rewrite firstn_app, L1, Nat.sub_diag, firstn_all2 by lia. apply app_nil_r. }
      assert (Hsk : skipn (sec_words s) (map (fun r => r ++ repeat zero k) g ++ g') = g').
      { rewrite skipn_app, L1, Nat.sub_diag, skipn_all2 by lia. reflexivity. }
      rewrite Hfn, Hsk, Ep'. unfold pick_symbols. rewrite L1, Nat.eqb_refl. cbn [andb].
      assert (Hfa : forallb (fun r => sec_subcarriers w s <=? length r)
                      (map (fun r => r ++ repeat zero k) g) = true).
      { apply forallb_forall. intros r Hin. rewrite Forall_forall in L2. rewrite (L2 _ Hin).
        apply Nat.leb_le. exact Fs. }
      rewrite Hfa. cbn [bind]. f_equal.
      assert (Hmm : map (firstn (sec_subcarriers w s)) (map (fun r => r ++ repeat zero k) g) = g).
      { rewrite map_map. destruct Sg as [_ Sg]. clear - Sg. induction Sg as [|r l Hr Hl IH]; [reflexivity|].
        cbn [map]. rewrite IH. f_equal. rewrite firstn_app, Hr, Nat.sub_diag, firstn_all2 by lia.
        apply app_nil_r. }
      rewrite Hmm, Gd. apply firstn_skipn.
Qed.

(** *** Positions *)
Lemma filter_map_comm' {B C} (f : B -> C) p (l : list B) :
  filter p (map f l) = map f (filter (fun x => p (f x)) l).
Proof. induction l; [reflexivity|]. cbn. destruct (p (f a)); cbn; rewrite IHl; reflexivity. Qed.

Lemma gather_positions_aux {B} (dB : B) (q : B -> bool) (r : list B) (x : list A) :
  length r = length x ->
  gather (map q r) x = map (fun j => nth j x zero) (filter (fun j => q (nth j r dB)) (seq 0 (length x))).
Proof.
  revert x. induction r as [|o r IH]; intros [|a x] H; cbn [length] in H; try discriminate; [reflexivity|].
  cbn [length seq]. rewrite <- seq_shift.
  assert (E : map (fun j => nth j (a :: x) zero) (filter (fun j => q (nth j (o :: r) dB)) (map S (seq 0 (length x))))
              = gather (map q r) x).
  { rewrite IH by lia. rewrite filter_map_comm', map_map. reflexivity. }
  cbn [map]. change (filter (fun j => q (nth j (o :: r) dB)) (0 :: map S (seq 0 (length x))))
    with (if q o then 0 :: filter (fun j => q (nth j (o :: r) dB)) (map S (seq 0 (length x)))
          else filter (fun j => q (nth j (o :: r) dB)) (map S (seq 0 (length x)))).
  destruct (q o); cbn [gather].
  - rewrite <- E. reflexivity.
  - symmetry. exact E.
Qed.

Lemma filter_list_prod {B C} (p : B * C -> bool) l1 l2 :
  filter p (list_prod l1 l2) = flat_map (fun x => map (fun y => (x, y)) (filter (fun y => p (x, y)) l2)) l1.
Proof.
  induction l1 as [|x l1 IH]; [reflexivity|]. cbn [list_prod flat_map].
  rewrite filter_app, IH, filter_map_comm'. reflexivity.
Qed.

Lemma gather_positions ty words width m (g : list (list A)) :
  shape words width m -> shape words width g ->
  gather (sel_of ty m) (concat g) = map (entry zero g) (positions ty words width m).
Proof.
  intros Sm Sg. unfold positions, cells. rewrite filter_list_prod.
  revert words g Sm Sg. induction m as [|r m IH]; intros words g [L1 F1] [L2 F2].
  - cbn in L1. subst. destruct g; [reflexivity|discriminate].
  - cbn [length] in L1. destruct g as [|x g]; cbn [length] in L2; [lia|].
    inversion F1; inversion F2; subst.
    cbn [seq flat_map]. rewrite map_app. unfold sel_of. cbn [concat]. rewrite map_app.
    rewrite gather_app by (rewrite map_length; congruence). f_equal.
    + rewrite (gather_positions_aux None) by congruence. rewrite map_map. rewrite H5. reflexivity.
    + rewrite <- seq_shift. rewrite flat_map_concat_map, map_map, <- flat_map_concat_map.
      change (map (is_type ty) (concat m)) with (sel_of ty m).
      rewrite (IH (length m) g); [|split; auto|split; [lia|auto]].
      clear. induction (seq 0 (length m)) as [|i l IHl]; [reflexivity|].
      cbn [flat_map]. rewrite !map_app, IHl. f_equal. rewrite !map_map. reflexivity.
Qed.

Lemma length_positions ty words width m :
  shape words width m -> length (positions ty words width m) = count_sel (sel_of ty m).
Proof.
  intro Sm.
  set (g := repeat (repeat zero width) words).
  assert (Sg : shape words width g).
  { split; [apply repeat_length|]. apply Forall_forall. intros r Hr. apply repeat_spec in Hr. subst.
    apply repeat_length. }
  pose proof (gather_positions ty words width m g Sm Sg) as H.
  apply (f_equal (@length A)) in H. rewrite map_length in H. rewrite <- H. apply length_gather.
  unfold sel_of. rewrite map_length, (length_concat_shape _ _ _ Sm), (length_concat_shape _ _ _ Sg). reflexivity.
Qed.

Lemma blank_entry words width m (g : list (list A)) i j :
  shape words width m -> shape words width g -> Forall2 blank (concat m) (concat g) ->
  i < words -> j < width -> blank (entry None m (i, j)) (entry zero g (i, j)).
Proof.
  intros Sm Sg HB Hi Hj.
  assert (X : forall B (d : B) (t : list (list B)) k, shape words width t -> k < words ->
     nth (k * width + j) (concat t) d = entry d t (k, j)).
  { intros B d t k [L F] Hk. unfold entry. cbn [fst snd]. revert k t L F Hk. clear - Hj.
    induction words as [|n IH]; intros k t L F Hk; [lia|].
    destruct t as [|r t]; [discriminate|]. inversion F; subst. cbn [concat nth].
    destruct k as [|k].
    - rewrite app_nth1 by lia. reflexivity.
    - rewrite app_nth2 by lia. rewrite <- (IH k t); [|cbn in L; lia|assumption|lia].
      f_equal. lia. }
  rewrite <- (X _ None m i Sm Hi), <- (X _ zero g i Sg Hi).
  assert (Hlt : i * width + j < length (concat m)).
  { rewrite (length_concat_shape _ _ _ Sm). nia. }
  clear - HB Hlt. revert Hlt. generalize (i * width + j) as k.
  induction HB as [|o x l l' Hox HB IH]; intros k Hk; cbn [length] in Hk; [lia|].
  destruct k; cbn [nth]; [exact Hox|]. apply IH. lia.
Qed.

(** *** The pilot sequence *)
Lemma nth_error_concat_repeat {B} (l : list B) n i : i < n * length l ->
  nth_error (concat (repeat l n)) i = nth_error l (i mod length l).
Proof.
  revert i. induction n as [|n IH]; intros i H; [lia|].
  assert (0 < length l) by (destruct l; cbn in *; lia).
  cbn [repeat concat]. destruct (Nat.lt_ge_cases i (length l)).
  - rewrite nth_error_app1 by assumption. rewrite Nat.mod_small by assumption. reflexivity.
  - rewrite nth_error_app2 by assumption. rewrite IH by lia. f_equal.
    replace i with (i - length l + 1 * length l) at 2 by lia. rewrite Nat.mod_add by lia. reflexivity.
Qed.

Lemma pilot_symbols_eq (w : wave) n : w_seq w <> [] ->
  pilot_symbols w n =
  (let k := ceil_div n (length (w_seq w)) in
   if 1 <? k then if w_repeat w then Ok (firstn n (concat (repeat (w_seq w) k))) else Raise RuntimeError
   else Ok (firstn n (w_seq w))).
Proof. unfold pilot_symbols. destruct (w_seq w); [congruence|reflexivity]. Qed.

Lemma pilot_symbols_spec (w : wave) n refs : pilot_symbols w n = Ok refs ->
  length refs = n /\ forall k, k < n -> nth_error refs k = nth_error (w_seq w) (k mod length (w_seq w)).
Proof.
  intro HE. assert (Hne : w_seq w <> []).
  { intro E. unfold pilot_symbols in HE. rewrite E in HE. discriminate. }
  rewrite (pilot_symbols_eq w n Hne) in HE. cbv zeta in HE.
  assert (Hp : 0 < length (w_seq w)) by (destruct (w_seq w); [congruence|cbn; lia]).
  pose proof (ceil_div_spec n (length (w_seq w)) Hp) as [C1 C2].
  destruct (Nat.ltb_spec 1 (ceil_div n (length (w_seq w)))) as [H|H].
  - destruct (w_repeat w); [|discriminate]. injection HE as <-.
    split; [rewrite firstn_length, length_concat_repeat; lia|].
    intros k Hk. rewrite nth_error_firstn. destruct (Nat.ltb_spec k n); [|lia].
    rewrite nth_error_concat_repeat by lia. reflexivity.
  - injection HE as <-. assert (n <= length (w_seq w)) by nia.
    split; [rewrite firstn_length; lia|].
    intros k Hk. rewrite nth_error_firstn. destruct (Nat.ltb_spec k n); [|lia].
    rewrite Nat.mod_small by lia. reflexivity.
Qed.

Lemma pilot_symbols_ok (w : wave) n :
  is_ok (pilot_symbols w n) <->
  w_seq w <> [] /\ (w_repeat w = true \/ n <= length (w_seq w)).
Proof.
  destruct (w_seq w) as [|a l] eqn:E.
  - unfold pilot_symbols, is_ok. rewrite E.
    split; [intros (? & H); discriminate|intros [H _]; congruence].
  - rewrite <- E. assert (Hne : w_seq w <> []) by congruence. clear E.
    rewrite (pilot_symbols_eq w n Hne). cbv zeta. unfold is_ok.
    assert (Hp : 0 < length (w_seq w)) by (destruct (w_seq w); [congruence|cbn; lia]).
    pose proof (ceil_div_spec n (length (w_seq w)) Hp) as [C1 C2].
    destruct (Nat.ltb_spec 1 (ceil_div n (length (w_seq w)))) as [H|H].
    + destruct (w_repeat w).
      * split; [|eauto]. intros _. split; [assumption|auto].
      * split; [intros (? & X); discriminate|]. intros [_ [X|X]]; [discriminate|].
        specialize (C2 1). lia.
    + split; [|eauto]. intros _. split; [assumption|]. right. nia.
Qed.

Lemma frame_refs_no_pilot (w : wave) : forall l refs,
  forallb (fun s => negb (is_pilot s)) l = true ->
  length refs = sum (map (sec_references w) l) -> frame_refs_aux w l refs = refs.
Proof.
  induction l as [|s l IH]; intros refs H L; cbn [map sum] in L.
  - destruct refs; [reflexivity|discriminate].
  - cbn [forallb] in H. apply andb_true_iff in H as [H1 H2]. cbn [frame_refs_aux].
    rewrite IH; [|exact H2|rewrite skipn_length; lia].
    destruct s; cbn [is_pilot negb] in H1; try discriminate; cbn [refs_in]; apply firstn_skipn.
Qed.

Lemma cycled_spec n (l : list A) : l <> [] ->
  firstn n (concat (repeat l (ceil_div n (length l)))) = cycled zero n l.
Proof.
  intro Hl. assert (Hp : 0 < length l) by (destruct l; [congruence|cbn; lia]).
  pose proof (ceil_div_mul n (length l) Hp) as Hc.
  apply nth_error_ext. intro i. rewrite nth_error_firstn. unfold cycled.
  rewrite nth_error_map', nth_error_seq. destruct (Nat.ltb_spec i n); [|reflexivity].
  rewrite nth_error_concat_repeat by lia. cbn [option_map]. rewrite Nat.add_0_l.
  apply nth_error_nth'. apply Nat.mod_upper_bound. lia.
Qed.

Lemma frame_refs_expected (w : wave) : (forall k, length (w_rand w k) = k) -> forall l refs,
  Forall sec_ok l -> frame_refs_aux w l refs = expected_refs zero w l refs.
Proof.
  intro Hr. induction l as [|s l IH]; intros refs H; [reflexivity|].
  inversion H as [|? ? Hs Hl]; subst. cbn [frame_refs_aux]. rewrite (IH _ Hl).
  destruct s as [reps pat off|n|[e|]]; cbn [expected_refs refs_in sec_references pilot_sequence].
  - reflexivity.
  - reflexivity.
  - rewrite cycled_spec; [reflexivity|]. intros ->. exact Hs.
  - f_equal. rewrite firstn_all2; [reflexivity|]. rewrite Hr. lia.
Qed.

Lemma place_sections_fit (w : wave) : forall l data refs g,
  place_sections zero w l data refs = Ok g -> Forall (fun s => sec_subcarriers w s <= w_sub w) l.
Proof.
  induction l as [|s l IH]; intros data refs g H; [constructor|]. cbn [place_sections] in H.
  apply bind_ok in H as (a & Ha & H).
  destruct (Nat.ltb_spec (w_sub w) (sec_subcarriers w s)); [discriminate|].
  apply bind_ok in H as (b & Hb & H). constructor; [assumption|]. eapply IH. exact Hb.
Qed.

Lemma pilots_sec_ok (w : wave) : pilots_ok w -> Forall sec_ok (w_struct w).
Proof. intros [_ H]. revert H. apply Forall_impl. intros [| |[[|]|]]; cbn; tauto. Qed.

Lemma place_inv (w : wave) data g : pilots_ok w -> place zero w data = Ok g ->
  fits w /\ exists refs m, pilot_symbols w (references_per_frame w) = Ok refs
    /\ resource_mask w = Ok m
    /\ length data = num_data_symbols w
    /\ shape (words_per_frame w) (w_sub w) g
    /\ shape (words_per_frame w) (w_sub w) m
    /\ gather (sel_of DATA m) (concat g) = data
    /\ gather (sel_of REFERENCE m) (concat g) = expected_refs zero w (w_struct w) refs
    /\ Forall2 blank (concat m) (concat g)
    /\ pick w g = Ok data.
Proof.
  intros Hp H. unfold place in H. apply bind_ok in H as (refs & Hr & H).
  destruct (Nat.eqb_spec (length data) (num_data_symbols w)) as [Hd|]; [|discriminate].
  pose proof (place_sections_fit w _ _ _ _ H) as Hf. split; [exact Hf|].
  pose proof (pilot_symbols_spec w _ _ Hr) as [Hl _].
  destruct (place_sections_spec w (proj1 Hp) (w_struct w) data refs (pilots_sec_ok w Hp) Hd Hl Hf)
    as (g' & m & Eg & Em & Sg & Gd & Gr & Gb & Ep).
  rewrite Eg in H. injection H as <-.
  destruct (masks_spec w _ Hf) as (m' & Em' & Sm & _). rewrite Em in Em'. injection Em' as <-.
  exists refs, m. rewrite <- frame_refs_expected; [|apply Hp|apply pilots_sec_ok, Hp].
  intuition.
Qed.

Lemma place_ok (w : wave) data : pilots_ok w ->
  (is_ok (place zero w data) <->
   length data = num_data_symbols w /\ fits w /\ references_available w).
Proof.
  intro Hp. split.
  - intros (g & H). pose proof H as H0. apply (place_inv w data g Hp) in H as (Hf & refs & m & Hr & _ & Hd & _).
    split; [exact Hd|]. split; [exact Hf|]. apply pilot_symbols_ok. exists refs. exact Hr.
  - intros (Hd & Hf & Ha). apply pilot_symbols_ok in Ha as (refs & Hr).
    pose proof (pilot_symbols_spec w _ _ Hr) as [Hl _].
    destruct (place_sections_spec w (proj1 Hp) (w_struct w) data refs (pilots_sec_ok w Hp) Hd Hl Hf)
      as (g' & m & Eg & _).
    exists g'. unfold place. rewrite Hr. cbn [bind]. rewrite Hd, Nat.eqb_refl. exact Eg.
Qed.

Lemma actual_refs_sum (w : wave) : forall l,
  sum (map (actual_refs w) l)
  = sum (map (sec_references w) l) + length (filter has_elements l) * w_sub w.
Proof.
  induction l as [|s l IH]; [reflexivity|]. cbn [map sum filter].
  destruct s as [reps pat off|n|[e|]]; cbn [has_elements actual_refs sec_references length] in *; lia.
Qed.

End P.
