From Coq Require Import List Arith Bool Lia ZArith.
From Verif Require Import Base BaseLemmas Grid_Model Grid_Spec Grid_Proofs.
Import ListNotations.

Section P.
Context {A : Type} (zero junk : A).
Notation wave := (@wave A).
Notation section := (@section A).
Implicit Types (w : wave) (s : section).

Lemma pyslice_nonneg {B} (a b : Z) (l : list B) : (0 <= a)%Z -> (0 <= b)%Z ->
  pyslice a b l = slice (Z.to_nat a) (Z.to_nat b) l.
Proof.
  intros Ha Hb. unfold pyslice.
  destruct (Z.ltb_spec a 0); [lia|]. destruct (Z.ltb_spec b 0); [lia|]. reflexivity.
Qed.

Definition eff (w : wave) os r : nat := if has_prefix w os r then prefix_samples w os r else 0.

Fixpoint place_rs (w : wave) os (rs : list resource) (rows : list (list A)) {struct rows} : result (list A) :=
  match rows, rs with
  | x :: t, r :: rs' => do y <- place_word zero w os r x; do ys <- place_rs w os rs' t; Ok (y ++ ys)
  | _, _ => Ok []
  end.

Lemma place_words_rs w os pat reps : forall rows i,
  i + length rows <= reps * length pat ->
  place_words zero w os pat i rows
  = place_rs w os (skipn i (concat (repeat (map (res_at w) pat) reps))) rows.
Proof.
  induction rows as [|x rows IH]; intros i H.
  - cbn [place_words place_rs]. reflexivity.
  - cbn [length] in H.
    assert (L : length (concat (repeat (map (res_at w) pat) reps)) = reps * length pat)
      by (rewrite length_concat_repeat, map_length; reflexivity).
    assert (Hi : i < length (concat (repeat (map (res_at w) pat) reps))) by lia.
    pose proof (nth_error_concat_repeat (map (res_at w) pat) reps i) as HN.
    rewrite map_length in HN. specialize (HN ltac:(lia)).
    assert (Hm : i mod length pat < length pat) by (apply Nat.mod_upper_bound; nia).
    rewrite nth_error_map' in HN.
    rewrite (nth_error_nth' pat 0 Hm) in HN. cbn [option_map] in HN.
    destruct (skipn i (concat (repeat (map (res_at w) pat) reps))) as [|r rs] eqn:E.
    + apply (f_equal (@length resource)) in E. rewrite skipn_length in E. cbn in E. lia.
    + assert (E0 : nth_error (concat (repeat (map (res_at w) pat) reps)) i = Some r).
      { rewrite <- (Nat.add_0_r i), <- nth_error_skipn, E. reflexivity. }
      rewrite E0 in HN. injection HN as ->.
      assert (E1 : skipn (S i) (concat (repeat (map (res_at w) pat) reps)) = rs).
      { replace (S i) with (i + 1) by lia. rewrite <- skipn_skipn', E. reflexivity. }
      cbn [place_words place_rs]. rewrite IH by lia. rewrite E1. reflexivity.
Qed.

Definition res_ok w os (off : nat) (r : resource) : Prop :=
  (r_ptype r = CYCLIC -> prefix_samples w os r <= slot w os) /\
  (off = 0 \/ (r_ptype r = CYCLIC /\ off <= prefix_samples w os r)).

Lemma assign_exact n (l : list A) : length l = n -> assign n l = Ok l.
Proof. intro H. unfold assign. rewrite H, Nat.eqb_refl. reflexivity. Qed.

Lemma slice_middle {B} (a b c : list B) : slice (length a) (length a + length b) (a ++ b ++ c) = b.
Proof.
  unfold slice. rewrite skipn_app, skipn_all, Nat.sub_diag. cbn [app skipn].
  rewrite firstn_app. replace (length a + length b - length a) with (length b) by lia.
  rewrite firstn_all, Nat.sub_diag, app_nil_r. reflexivity.
Qed.

Lemma length_rotate k (x : list A) : length (rotate k x) = length x.
Proof. unfold rotate. rewrite app_length, skipn_length, firstn_length. lia. Qed.

Lemma rotate_0 (x : list A) : rotate 0 x = x.
Proof.
  unfold rotate. rewrite Nat.sub_0_r, skipn_all, firstn_all. reflexivity.
Qed.

Lemma place_word_spec w os off r x :
  length x = slot w os -> res_ok w os off r ->
  exists pre, place_word zero w os r x = Ok (pre ++ x) /\ length pre = eff w os r /\
    (off = 0 \/ (off <= length pre /\ skipn (length pre - off) pre = skipn (length x - off) x)).
Proof.
  intros Hx [H1 H2]. unfold place_word, eff. destruct (has_prefix w os r) eqn:Hp.
  - unfold has_prefix in Hp. apply andb_true_iff in Hp as [Hp Hn]. apply Nat.ltb_lt in Hp.
    destruct (r_ptype r) eqn:Et; [| |discriminate].
    + specialize (H1 eq_refl).
      assert (L : length (skipn (length x - prefix_samples w os r) x) = prefix_samples w os r)
        by (rewrite skipn_length; lia).
      rewrite (assign_exact _ _ L). cbn [bind]. eexists. split; [reflexivity|]. split; [exact L|].
      rewrite L. destruct H2 as [->|[_ H2]]; [auto|]. right. split; [exact H2|].
      rewrite skipn_skipn'. f_equal. lia.
    + eexists. split; [reflexivity|]. split; [apply repeat_length|].
      destruct H2 as [->|[H2 _]]; [auto|congruence].
  - exists []. split; [reflexivity|]. split; [reflexivity|].
    destruct H2 as [->|[H2 H3]]; [auto|]. right. cbn [length].
    unfold has_prefix in Hp. rewrite H2 in Hp. cbn [is_none negb] in Hp. rewrite andb_true_r in Hp.
    apply Nat.ltb_ge in Hp. assert (off = 0) by lia. subst. split; [lia|].
    rewrite (Nat.sub_0_r (length x)), skipn_all. reflexivity.
Qed.

Lemma place_rs_spec w os off : forall rs rows,
  length rows = length rs -> Forall (fun x => length x = slot w os) rows ->
  Forall (res_ok w os off) rs ->
  exists y, place_rs w os rs rows = Ok y
    /\ length y = sum (map (fun r => slot w os + eff w os r) rs)
    /\ forall pre post idx, idx = length pre ->
         pick_words w os off idx rs (pre ++ y ++ post) = Ok (map (rotate off) rows).
Proof.
  induction rs as [|r rs IH]; intros rows L F R.
  - destruct rows; [|discriminate]. exists []. split; [reflexivity|]. split; [reflexivity|].
    intros; reflexivity.
  - destruct rows as [|x rows]; [discriminate|]. cbn [length] in L.
    inversion F as [|? ? Fx Fr]; subst. inversion R as [|? ? Rr Rrs]; subst.
    destruct (place_word_spec w os off r x Fx Rr) as (p & Ep & Lp & Op).
    destruct (IH rows ltac:(lia) Fr Rrs) as (y & Ey & Ly & Py).
    cbn [place_rs]. rewrite Ep, Ey. cbn [bind]. eexists. split; [reflexivity|]. split.
    { cbn [map sum]. rewrite !app_length. lia. }
    intros pre post idx ->. cbn [pick_words].
    replace (if has_prefix w os r then length pre + prefix_samples w os r else length pre)
      with (length pre + length p) by (rewrite Lp; unfold eff; destruct (has_prefix w os r); lia).
    assert (HX : pyslice (Z.of_nat (length pre + length p) - Z.of_nat off)
             (Z.of_nat (length pre + length p) + Z.of_nat (slot w os) - Z.of_nat off)
             (pre ++ ((p ++ x) ++ y) ++ post) = rotate off x).
    { destruct Op as [->|[O1 O2]].
      - rewrite rotate_0. rewrite pyslice_nonneg by lia.
        replace (Z.to_nat _) with (length (pre ++ p)) by (rewrite app_length; lia).
        replace (Z.to_nat _) with (length (pre ++ p) + length x) by (rewrite app_length; lia).
        replace (pre ++ ((p ++ x) ++ y) ++ post) with ((pre ++ p) ++ x ++ y ++ post)
          by (rewrite <- !app_assoc; reflexivity).
        apply slice_middle.
      - rewrite pyslice_nonneg by lia.
        assert (Hox : off <= length x).
        { pose proof (f_equal (@length A) O2) as HL. rewrite !skipn_length in HL. lia. }
        replace (Z.to_nat (_ - _)) with (length (pre ++ firstn (length p - off) p))
          by (rewrite app_length, firstn_length; lia).
        replace (Z.to_nat _) with (length (pre ++ firstn (length p - off) p) + length (rotate off x))
          by (rewrite length_rotate, app_length, firstn_length; lia).
        replace (pre ++ ((p ++ x) ++ y) ++ post) with
          ((pre ++ firstn (length p - off) p) ++ rotate off x ++ (skipn (length x - off) x ++ y ++ post)).
        + apply slice_middle.
        + unfold rotate. rewrite <- O2. rewrite <- !app_assoc. f_equal.
          rewrite (app_assoc (firstn _ p)), firstn_skipn. f_equal.
          rewrite O2, (app_assoc (firstn _ x)), firstn_skipn. reflexivity. }
    rewrite HX, assign_exact by (rewrite length_rotate; exact Fx). cbn [bind].
    replace (pre ++ ((p ++ x) ++ y) ++ post) with ((pre ++ p ++ x) ++ y ++ post)
      by (rewrite <- !app_assoc; reflexivity).
    rewrite (Py (pre ++ p ++ x) post) by (rewrite !app_length; lia). reflexivity.
Qed.

Lemma place_rs_length w os : forall rs rows y,
  length rows = length rs -> Forall (fun x => length x = slot w os) rows ->
  place_rs w os rs rows = Ok y -> length y = sum (map (fun r => slot w os + eff w os r) rs).
Proof.
  induction rs as [|r rs IH]; intros rows y L F H.
  - destruct rows; [|discriminate]. injection H as <-. reflexivity.
  - destruct rows as [|x rows]; [discriminate|]. inversion F; subst. cbn [place_rs] in H.
    apply bind_ok in H as (a & Ha & H). apply bind_ok in H as (b & Hb & H). injection H as <-.
    rewrite app_length. erewrite IH with (rows := rows) (y := b); [|cbn in L; lia|assumption|assumption].
    cbn [map sum]. enough (length a = slot w os + eff w os r) by lia.
    unfold place_word, eff in *. destruct (has_prefix w os r).
    + destruct (r_ptype r); [| |discriminate].
      * apply bind_ok in Ha as (p & Hp & Ha). injection Ha as <-. rewrite app_length.
        unfold assign in Hp. destruct (Nat.eqb_spec (length (skipn (length x - prefix_samples w os r) x)) (prefix_samples w os r)) as [Hl|Hl].
        { injection Hp as <-. lia. }
        { destruct (skipn (length x - prefix_samples w os r) x) as [|v [|]]; try discriminate.
          injection Hp as <-. rewrite repeat_length. lia. }
      * injection Ha as <-. rewrite app_length, repeat_length. lia.
    + injection Ha as <-. lia.
Qed.

Lemma sum_map_le {B} (f g : B -> nat) l : (forall x, f x <= g x) -> sum (map f l) <= sum (map g l).
Proof. intro H. induction l as [|x l IH]; [cbn; lia|]. cbn. specialize (H x). lia. Qed.

Lemma sum_concat_repeat {B} (f : B -> nat) l n : sum (map f (concat (repeat l n))) = n * sum (map f l).
Proof. induction n; [reflexivity|]. cbn [repeat concat]. rewrite map_app, sum_app, IHn. lia. Qed.

Lemma sum_eff_le w os reps pat :
  sum (map (fun r => slot w os + eff w os r) (concat (repeat (map (res_at w) pat) reps)))
  <= (length pat * slot w os + sum (map (fun i => prefix_samples w os (res_at w i)) pat)) * reps.
Proof.
  rewrite sum_concat_repeat, map_map, Nat.mul_comm. apply Nat.mul_le_mono_r.
  induction pat as [|i pat IH]; [cbn; lia|]. cbn [map sum length].
  assert (eff w os (res_at w i) <= prefix_samples w os (res_at w i))
    by (unfold eff; destruct (has_prefix _ _ _); lia). lia.
Qed.

(** A section can be modulated and picked. *)
Definition sec_res_ok w os s : Prop :=
  match s with
  | SymSec reps pat off => forall i, In i pat -> res_ok w os off (res_at w i)
  | _ => True
  end.

Lemma In_concat_repeat {B} (x : B) l n : In x (concat (repeat l n)) -> In x l.
Proof.
  induction n; cbn; [tauto|]. intro H. apply in_app_or in H as [H|H]; auto.
Qed.

Lemma section_samples w os s rows :
  length rows = sec_words s -> Forall (fun x => length x = slot w os) rows -> sec_res_ok w os s ->
  exists y, place_samples zero junk w os s rows = Ok y /\ length y = sec_samples w os s
    /\ pick_samples w os s y = Ok (map (rotate (sec_offset s)) rows).
Proof.
  intros L F R. destruct s as [reps pat off|n|e].
  - cbn [sec_words] in L. cbn [sec_res_ok] in R.
    set (rs := concat (repeat (map (res_at w) pat) reps)).
    assert (Lr : length rs = reps * length pat)
      by (unfold rs; rewrite length_concat_repeat, map_length; reflexivity).
    destruct (place_rs_spec w os off rs rows) as (y & Ey & Ly & Py); [lia|exact F| |].
    { apply Forall_forall. intros r Hr. apply In_concat_repeat in Hr.
      apply in_map_iff in Hr as (i & <- & Hi). apply R, Hi. }
    assert (Hle : length y <= sec_samples w os (SymSec reps pat off))
      by (rewrite Ly; apply sum_eff_le).
    unfold place_samples. rewrite (place_words_rs w os pat reps) by lia.
    cbn [skipn]. fold rs. rewrite Ey. cbn [bind].
    destruct (Nat.leb_spec (length y) (sec_samples w os (SymSec reps pat off))); [|lia].
    eexists. split; [reflexivity|]. split; [rewrite app_length, repeat_length; lia|].
    cbn [pick_samples sec_offset]. fold rs. apply (Py []). reflexivity.
  - cbn [sec_words] in L. destruct rows; [|discriminate]. eexists. split; [reflexivity|].
    split; [apply repeat_length|reflexivity].
  - cbn [sec_words] in L. destruct rows as [|x [|]]; try discriminate. inversion F; subst.
    cbn [place_samples concat]. rewrite app_nil_r, assign_exact by assumption.
    eexists. split; [reflexivity|]. split; [assumption|]. cbn [pick_samples sec_offset map].
    rewrite assign_exact by assumption. cbn [bind]. rewrite rotate_0. reflexivity.
Qed.

Lemma place_samples_length w os s rows y :
  length rows = sec_words s -> Forall (fun x => length x = slot w os) rows ->
  place_samples zero junk w os s rows = Ok y -> length y = sec_samples w os s.
Proof.
  intros L F H. destruct s as [reps pat off|n|e]; unfold place_samples in H.
  - apply bind_ok in H as (z & Hz & H).
    remember (sec_samples w os (SymSec reps pat off)) as k.
    destruct (Nat.leb_spec (length z) k); [|discriminate].
    injection H as <-. rewrite app_length, repeat_length. lia.
  - injection H as <-. apply repeat_length.
  - unfold assign in H. destruct (Nat.eqb_spec (length (concat rows)) (slot w os)).
    + injection H as <-. assumption.
    + destruct (concat rows) as [|v [|]]; try discriminate. injection H as <-. apply repeat_length.
Qed.

(** *** Frames *)
(** The words of each section rotated by its sample offset. *)
Fixpoint rotated (l : list section) (rows : list (list A)) : list (list A) :=
  match l with
  | [] => []
  | s :: t => map (rotate (sec_offset s)) (firstn (sec_words s) rows) ++ rotated t (skipn (sec_words s) rows)
  end.

Lemma sections_samples w os : forall l rows,
  shape (sum (map sec_words l)) (slot w os) rows -> Forall (sec_res_ok w os) l ->
  exists y, modulate_sections zero junk w os l rows = Ok y
    /\ length y = sum (map (sec_samples w os) l)
    /\ demodulate_sections w os l y = Ok (rotated l rows).
Proof.
  induction l as [|s l IH]; intros rows [L F] R.
  - exists []. repeat split; reflexivity.
  - inversion R as [|? ? Rs Rl]; subst. cbn [map sum] in L.
    destruct (section_samples w os s (firstn (sec_words s) rows)) as (x & Ex & Lx & Px).
    { rewrite firstn_length. lia. } { apply Forall_forall. intros z Hz. rewrite Forall_forall in F. apply F. rewrite <- (firstn_skipn (sec_words s)). apply in_or_app. auto. } { exact Rs. }
    destruct (IH (skipn (sec_words s) rows)) as (y & Ey & Ly & Py).
    { split; [rewrite skipn_length; lia|]. apply Forall_forall. intros z Hz. rewrite Forall_forall in F.
      apply F. rewrite <- (firstn_skipn (sec_words s)). apply in_or_app. auto. }
    { exact Rl. }
    cbn [modulate_sections]. rewrite Ex, Ey. cbn [bind]. eexists. split; [reflexivity|].
    split; [rewrite app_length; cbn [map sum]; lia|].
    cbn [demodulate_sections]. rewrite <- Lx.
    rewrite firstn_app, firstn_all, Nat.sub_diag, skipn_app, skipn_all, Nat.sub_diag.
    cbn [firstn skipn app]. rewrite app_nil_r, Px, Py. reflexivity.
Qed.

Lemma modulate_sections_length w os : forall l rows y,
  shape (sum (map sec_words l)) (slot w os) rows ->
  modulate_sections zero junk w os l rows = Ok y -> length y = sum (map (sec_samples w os) l).
Proof.
  induction l as [|s l IH]; intros rows y [L F] H.
  - injection H as <-. reflexivity.
  - cbn [map sum] in *. cbn [modulate_sections] in H.
    apply bind_ok in H as (a & Ha & H). apply bind_ok in H as (b & Hb & H). injection H as <-.
    assert (F1 : Forall (fun x => length x = slot w os) (firstn (sec_words s) rows) /\
                 Forall (fun x => length x = slot w os) (skipn (sec_words s) rows)).
    { rewrite <- Forall_app, firstn_skipn. exact F. }
    destruct F1 as [F1 F2]. rewrite app_length.
    rewrite (place_samples_length w os s (firstn (sec_words s) rows) a) by
      (try assumption; rewrite firstn_length; lia).
    rewrite (IH (skipn (sec_words s) rows) b); [reflexivity| |assumption].
    split; [rewrite skipn_length; lia|assumption].
Qed.

Lemma map_rotate_0 (rows : list (list A)) : map (rotate 0) rows = rows.
Proof. induction rows as [|x l IH]; [reflexivity|]. cbn [map]. rewrite rotate_0, IH. reflexivity. Qed.

Lemma rotated_none : forall l rows, length rows = sum (map (@sec_words A) l) ->
  Forall (fun s => sec_offset s = 0) l -> rotated l rows = rows.
Proof.
  induction l as [|s l IH]; intros rows L F; cbn [map sum] in L.
  - destruct rows; [reflexivity|discriminate].
  - inversion F as [|? ? F1 F2]; subst. cbn [rotated]. rewrite F1, map_rotate_0, IH; [|rewrite skipn_length; lia|exact F2].
    apply firstn_skipn.
Qed.

Lemma correct_none (correct : nat -> list (list A) -> list (list A)) : forall l g,
  Forall (fun s => sec_offset s = 0) l -> correct_offsets correct l g = g.
Proof.
  induction l as [|s l IH]; intros g F; [reflexivity|]. inversion F as [|? ? F1 F2]; subst.
  cbn [correct_offsets]. rewrite F1. cbn [Nat.eqb]. apply IH, F2.
Qed.

(** Frame with leading pilot *)
Lemma frame_samples (fwd : list (list A) -> list (list A)) w os grid :
  shape (words_per_frame w) (slot w os) (fwd grid) ->
  (forall e, w_pilot w = Some e -> length (concat (fwd [pilot_sequence w e (w_sub w)])) = slot w os) ->
  Forall (sec_res_ok w os) (w_struct w) ->
  exists y, modulate zero junk fwd w os grid = Ok y /\ length y = samples_per_frame w os
    /\ forall bwd correct, demodulate bwd correct w os y
       = Ok (correct_offsets correct (w_struct w) (bwd (rotated (w_struct w) (fwd grid)))).
Proof.
  intros S P R. destruct (sections_samples w os (w_struct w) (fwd grid) S R) as (y & Ey & Ly & Py).
  unfold modulate, demodulate, samples_per_frame. destruct (w_pilot w) as [e|] eqn:E.
  - specialize (P e eq_refl). rewrite (assign_exact _ _ P). cbn [bind]. rewrite Ey. cbn [bind].
    eexists. split; [reflexivity|]. split; [rewrite app_length; lia|]. intros bwd correct.
    rewrite skipn_app, <- P, skipn_all, Nat.sub_diag. cbn [app skipn]. rewrite Py. reflexivity.
  - cbn [bind]. rewrite Ey. cbn [bind app]. eexists. split; [reflexivity|]. split; [lia|].
    intros. rewrite Py. reflexivity.
Qed.

Lemma modulate_length (fwd : list (list A) -> list (list A)) w os grid y :
  shape (words_per_frame w) (slot w os) (fwd grid) ->
  modulate zero junk fwd w os grid = Ok y -> length y = samples_per_frame w os.
Proof.
  intros S H. unfold modulate in H. apply bind_ok in H as (a & Ha & H).
  apply bind_ok in H as (b & Hb & H). injection H as <-. rewrite app_length.
  rewrite (modulate_sections_length w os _ _ b S Hb). unfold samples_per_frame.
  destruct (w_pilot w).
  - unfold assign in Ha. destruct (Nat.eqb_spec (length (concat (fwd [pilot_sequence w o (w_sub w)]))) (slot w os)).
    + injection Ha as <-. lia.
    + destruct (concat _) as [|v [|]]; try discriminate. injection Ha as <-. rewrite repeat_length. lia.
  - injection Ha as <-. cbn. lia.
Qed.

End P.
