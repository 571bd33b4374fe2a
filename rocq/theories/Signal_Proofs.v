(** Proofs about sparse and dense signals (C39 - C42). *)
From Coq Require Import List Arith Bool Lia ZArith Sorted.
From Verif Require Import Base BaseLemmas Signal_Model Signal_Spec.
Import ListNotations.

(** * Windows *)
Lemma map2_length {X Y Z} (f : X -> Y -> Z) l1 : forall l2, length (map2 f l1 l2) = Nat.min (length l1) (length l2).
Proof. induction l1 as [|x l1 IH]; intros [|y l2]; cbn; auto. Qed.
Lemma nth_error_map2 {X Y Z} (f : X -> Y -> Z) l1 : forall l2 i,
  nth_error (map2 f l1 l2) i = match nth_error l1 i, nth_error l2 i with Some x, Some y => Some (f x y) | _, _ => None end.
Proof.
  induction l1 as [|x l1 IH]; intros [|y l2] [|i]; cbn; auto. destruct (nth_error l1 i); auto.
Qed.

Lemma filter_map_comm {X Y} (f : Y -> bool) (g : X -> Y) l : filter f (map g l) = map g (filter (fun x => f (g x)) l).
Proof. induction l as [|x l IH]; cbn; [auto|]. rewrite IH. destruct (f (g x)); auto. Qed.
Lemma breaks_cons x y r : breaks (x :: y :: r) = (if y - x =? 1 then [] else [1]) ++ map S (breaks (y :: r)).
Proof.
  unfold breaks. change (diffs (x :: y :: r)) with ((y - x) :: diffs (y :: r)). set (d := diffs (y :: r)).
  cbn [length seq]. rewrite <- seq_shift. cbn [filter]. rewrite filter_map_comm. cbn [nth].
  destruct (y - x =? 1); reflexivity.
Qed.
Lemma breaks_pos idx i : In i (breaks idx) -> 0 < i.
Proof. unfold breaks. intros H. apply in_map_iff in H as (j & <- & _). lia. Qed.

Lemma windows_single x : windows [x] = [(x, S x)].
Proof. reflexivity. Qed.
Lemma windows_cons x y r : windows (x :: y :: r) =
  if y - x =? 1 then match windows (y :: r) with (_, e) :: t => (x, e) :: t | [] => [] end
  else (x, S x) :: windows (y :: r).
Proof.
  unfold windows. unfold win_offsets, win_stops. rewrite breaks_cons.
  change (last (x :: y :: r) 0) with (last (y :: r) 0).
  change (nth 0 (x :: y :: r) 0) with x. change (nth 0 (y :: r) 0) with y.
  rewrite !map_app, !map_map. change (fun i => nth (S i) (x :: y :: r) 0) with (fun i => nth i (y :: r) 0).
  assert (H : map (fun i => S (nth (S i - 1) (x :: y :: r) 0)) (breaks (y :: r)) = map (fun i => S (nth (i - 1) (y :: r) 0)) (breaks (y :: r))).
  { apply map_ext_in. intros i Hi. apply breaks_pos in Hi. destruct i as [|i]; [lia|]. f_equal.
    replace (S (S i) - 1) with (S i) by lia. replace (S i - 1) with i by lia. reflexivity. }
  rewrite H. destruct (y - x =? 1); [|reflexivity]. cbn [map app].
  destruct (map (fun i => S (nth (i - 1) (y :: r) 0)) (breaks (y :: r)) ++ [S (last (y :: r) 0)]) as [|s l] eqn:E.
  - apply app_eq_nil in E as [_ E]. discriminate E.
  - reflexivity.
Qed.

(** Windows begin after one another with gaps in between. *)
Fixpoint gaps (lo : nat) (ws : list (nat * nat)) : Prop :=
  match ws with
  | [] => True
  | (a, e) :: t => lo <= a /\ a < e /\ gaps (S e) t
  end.
Lemma windows_spec idx : StronglySorted lt idx -> idx <> [] ->
  exists e t, windows idx = (nth 0 idx 0, e) :: t /\ gaps (nth 0 idx 0) (windows idx) /\
    forall k, In k idx <-> exists a e', In (a, e') (windows idx) /\ a <= k < e'.
Proof.
  induction idx as [|x idx IH]; intros Hs Hne; [congruence|]. destruct idx as [|y r].
  - exists (S x), []. cbn [nth]. rewrite windows_single. split; [reflexivity|]. split; [cbn; lia|].
    intros k. split.
    + intros [<-|[]]. exists x, (S x). cbn. split; [auto|lia].
    + intros (a & e & [H|[]] & Hk). injection H as <- <-. left. lia.
  - inversion Hs as [|? ? Hs' Hall]; subst. assert (Hxy : x < y) by (inversion Hall; auto).
    destruct (IH Hs' ltac:(discriminate)) as (e & t & Ew & Hg & Hin). cbn [nth] in *.
    rewrite windows_cons. destruct (Nat.eqb_spec (y - x) 1) as [E1|E1].
    + rewrite Ew in *. exists e, t. split; [reflexivity|]. cbn [gaps] in *. split; [intuition lia|].
      intros k. cbn [In]. split.
      * intros [<-|Hk].
        -- exists x, e. split; [auto|lia].
        -- apply Hin in Hk as (a & e' & [H|H] & Hk).
           ++ injection H as <- <-. exists x, e. split; [auto|lia].
           ++ exists a, e'. auto.
      * intros (a & e' & [H|H] & Hk).
        -- injection H as <- <-. destruct (Nat.eq_dec k x); [auto|]. right. apply Hin. exists y, e. cbn. split; [auto|lia].
        -- right. apply Hin. exists a, e'. cbn. auto.
    + exists (S x), (windows (y :: r)). split; [reflexivity|].
      split. { cbn [gaps]. rewrite Ew in *. cbn [gaps] in *. intuition lia. }
      intros k. split.
      * intros [<-|Hk]; [exists x, (S x); cbn; split; [auto|lia]|].
        apply Hin in Hk as (a & e' & H & Hk). exists a, e'. cbn [In]. auto.
      * intros (a & e' & [H|H] & Hk); [injection H as <- <-; left; lia|right; apply Hin; eauto].
Qed.
Lemma windows_props idx : StronglySorted lt idx -> gaps 0 (windows idx) /\
    forall k, In k idx <-> exists a e, In (a, e) (windows idx) /\ a <= k < e.
Proof.
  intros Hs. destruct idx as [|x idx].
  - split; [exact I|]. intros k. split; [intros []|intros (a & e & [] & _)].
  - destruct (windows_spec (x :: idx) Hs ltac:(discriminate)) as (e & t & Ew & Hg & Hin). split; [|auto].
    clear - Ew Hg. rewrite Ew in *. cbn [gaps] in *. intuition lia.
Qed.
Lemma sorted_filter_seq f n : forall a, StronglySorted lt (filter f (seq a n)).
Proof.
  induction n as [|n IH]; intros a; cbn; [constructor|]. destruct (f a); [|auto]. constructor; [auto|].
  apply Forall_forall. intros y Hy. apply filter_In in Hy as [Hy _]. apply in_seq in Hy. lia.
Qed.
Lemma gaps_unique ws : forall lo a e a' e' k, gaps lo ws -> In (a, e) ws -> In (a', e') ws -> a <= k < e -> a' <= k < e' -> (a, e) = (a', e').
Proof.
  assert (Hlo : forall ws lo a e, gaps lo ws -> In (a, e) ws -> lo <= a /\ a < e).
  { clear. induction ws as [|[x y] ws IH]; intros lo a e Hg Hin; [destruct Hin|]. cbn in Hg. destruct Hin as [H|H].
    - injection H as <- <-. lia.
    - destruct Hg as (H1 & H2 & H3). destruct (IH _ _ _ H3 H). lia. }
  induction ws as [|[x y] ws IH]; intros lo a e a' e' k Hg H1 H2 K1 K2; [destruct H1|]. cbn in Hg. destruct Hg as (G1 & G2 & G3).
  destruct H1 as [H1|H1], H2 as [H2|H2].
  - congruence.
  - injection H1 as <- <-. destruct (Hlo _ _ _ _ G3 H2). lia.
  - injection H2 as <- <-. destruct (Hlo _ _ _ _ G3 H1). lia.
  - eapply IH; eauto.
Qed.

Section S.
Variable A : Type.
Variable zero : A.
Variable add : A -> A -> A.
Variable is_zero : A -> bool.
Hypothesis L : laws zero add is_zero.
Notation col := (list A).
Notation block := (block A).
Notation signal := (signal A).
Notation zcol := (zcol A zero).

(** * Blocks over windows *)

(** Block [b] stores [F t] for every [t] in the window [w]. *)
Definition holds (ns : nat) (F : nat -> col) (w : nat * nat) (b : block) : Prop :=
  k_off b = fst w /\ length (k_cols b) = snd w - fst w /\ k_ns b = ns /\
  forall t, fst w <= t < snd w -> nth_error (k_cols b) (t - fst w) = Some (F t).

Lemma at_holds ns F w b t : holds ns F w b -> at_block b t = if (fst w <=? t) && (t <? snd w) then Some (F t) else None.
Proof.
  intros (H1 & H2 & _ & H3). unfold at_block. rewrite H1. destruct (Nat.leb_spec (fst w) t); cbn [andb]; [|auto].
  destruct (Nat.ltb_spec t (snd w)); [apply H3; lia|]. apply nth_error_None. lia.
Qed.
Lemma at_windows ns F ws bs : Forall2 (holds ns F) ws bs -> forall t,
  at_blocks bs t = if existsb (fun w => (fst w <=? t) && (t <? snd w)) ws then Some (F t) else None.
Proof.
  induction 1 as [|w b ws bs H HF IH]; intros t; [reflexivity|]. cbn [at_blocks existsb].
  rewrite (at_holds ns F w b t H), IH. destruct ((fst w <=? t) && (t <? snd w)); auto.
Qed.
Lemma ordered_windows ns F ws bs : Forall2 (holds ns F) ws bs -> forall lo, gaps lo ws -> ordered lo bs.
Proof.
  induction 1 as [|w b ws bs H HF IH]; intros lo Hg; [exact I|]. destruct w as [a e]. cbn [gaps ordered] in *.
  destruct H as (H1 & H2 & _). cbn in *. destruct Hg as (G1 & G2 & G3). split; [lia|].
  replace (k_end b) with e by (unfold k_end; lia).
  specialize (IH (S e) G3). destruct bs; [exact I|]. cbn in *. split; [lia|tauto].
Qed.
Lemma existsb_window ws t : existsb (fun w => (fst w <=? t) && (t <? snd w)) ws = true <-> exists a e, In (a, e) ws /\ a <= t < e.
Proof.
  rewrite existsb_exists. split.
  - intros ([a e] & Hin & H). cbn [fst snd] in H. apply andb_prop in H as [H1 H2]. apply Nat.leb_le in H1. apply Nat.ltb_lt in H2. eauto.
  - intros (a & e & Hin & H1 & H2). exists (a, e). split; [auto|]. cbn [fst snd]. apply andb_true_intro. rewrite Nat.leb_le, Nat.ltb_lt. auto.
Qed.
Lemma streams_windows ns F ws bs : Forall2 (holds ns F) ws bs -> (forall a e t, In (a, e) ws -> a <= t < e -> length (F t) = ns) -> streams_ok ns bs.
Proof.
  intros H HF. unfold streams_ok. induction H as [|[a e] b ws bs H _ IH]; constructor.
  - destruct H as (H1 & H2 & H3 & H4). cbn in *. split; [auto|]. apply Forall_forall. intros c Hc.
    apply In_nth_error in Hc as [i Hi]. assert (i < e - a) by (rewrite <- H2; apply nth_error_Some; congruence).
    specialize (H4 (a + i)). replace (a + i - a) with i in H4 by lia. rewrite H4 in Hi by lia. injection Hi as <-.
    apply (HF a e); [left; auto|lia].
  - apply IH. intros; eapply HF; eauto. right; eauto.
Qed.

(** * Basic facts on blocks *)
Lemma at_block_Some (b : block) t c : at_block b t = Some c -> k_off b <= t < k_end b.
Proof.
  unfold at_block. destruct (Nat.leb_spec (k_off b) t); [|discriminate]. intros H1.
  assert (t - k_off b < length (k_cols b)) by (apply nth_error_Some; congruence). unfold k_end. lia.
Qed.
Lemma at_block_None (b : block) t : at_block b t = None <-> ~ (k_off b <= t < k_end b).
Proof.
  unfold at_block, k_end. destruct (Nat.leb_spec (k_off b) t); [|split; [lia|auto]].
  rewrite nth_error_None. lia.
Qed.
Lemma at_blocks_None (bs : list block) t : at_blocks bs t = None <-> forall b, In b bs -> ~ (k_off b <= t < k_end b).
Proof.
  induction bs as [|b bs IH]; cbn; [split; [intros _ b []|auto]|].
  destruct (at_block b t) as [c|] eqn:E.
  - split; [discriminate|]. intros H. apply at_block_Some in E. elim (H b); auto.
  - rewrite IH. apply at_block_None in E. split; [intros H x [<-|Hx]; auto|auto].
Qed.
Lemma at_blocks_Some (bs : list block) t c : at_blocks bs t = Some c -> exists b, In b bs /\ at_block b t = Some c.
Proof.
  induction bs as [|b bs IH]; cbn; [discriminate|]. destruct (at_block b t) eqn:E; [intros [= <-]; eauto|].
  intros H. destruct (IH H) as (x & Hx & Hc). eauto.
Qed.
Lemma ordered_ge lo (bs : list block) : ordered lo bs -> forall b, In b bs -> lo <= k_off b /\ k_off b <= k_end b.
Proof.
  revert lo; induction bs as [|x bs IH]; intros lo H b Hb; [destruct Hb|]. destruct H as [H1 H2]. destruct Hb as [->|Hb].
  - unfold k_end; lia.
  - destruct (IH _ H2 b Hb). unfold k_end in *; lia.
Qed.
Lemma ordered_weaken lo lo' (bs : list block) : lo' <= lo -> ordered lo bs -> ordered lo' bs.
Proof. destruct bs; cbn; [auto|]. intros; lia + (split; [lia|tauto]). Qed.
Lemma at_blocks_low lo (bs : list block) t : ordered lo bs -> t < lo -> at_blocks bs t = None.
Proof. intros H Ht. apply at_blocks_None. intros b Hb. apply (ordered_ge lo bs H) in Hb. lia. Qed.
Lemma sp_n_spec (bs : list block) lo : ordered lo bs -> forall b, In b bs -> k_end b <= sp_n bs.
Proof.
  intros H b Hb. unfold sp_n. destruct bs as [|x l] using rev_ind; [destruct Hb|]. clear IHl. rewrite rev_app_distr. cbn [rev app].
  apply in_app_iff in Hb as [Hb|[->|[]]]; [|auto].
  assert (Hx : k_end b <= k_off x).
  { clear - H Hb. revert lo H; induction l as [|y l IH]; intros lo H; [destruct Hb|]. destruct H as [H1 H2]. cbn in H2.
    destruct Hb as [->|Hb]; [|eapply IH; eauto]. clear - H2.
    apply (ordered_ge _ _ H2 x). apply in_or_app. right. left. auto. }
  unfold k_end in *. lia.
Qed.
Lemma at_blocks_lt (bs : list block) t c : ordered 0 bs -> at_blocks bs t = Some c -> t < sp_n bs.
Proof.
  intros H E. apply at_blocks_Some in E as (b & Hb & E). apply at_block_Some in E. pose proof (sp_n_spec bs 0 H b Hb). lia.
Qed.
Lemma at_blocks_len ns (bs : list block) t c : streams_ok ns bs -> at_blocks bs t = Some c -> length c = ns.
Proof.
  intros H E. apply at_blocks_Some in E as (b & Hb & E). unfold streams_ok in H. rewrite Forall_forall in H.
  destruct (H b Hb) as [_ Hc]. unfold at_block in E. destruct (k_off b <=? t); [|discriminate].
  apply nth_error_In in E. rewrite Forall_forall in Hc. auto.
Qed.

(** * Writing *)
Lemma write_spec f ns target off stop cols : off <= stop -> stop <= length target -> length cols = stop - off ->
  exists r, write A zero f ns target off stop ns cols = Ok r /\ length r = length target /\
    forall t, nth_error r t = if (off <=? t) && (t <? stop)
                              then match nth_error target t, nth_error cols (t - off) with Some x, Some y => Some (f x y) | _, _ => None end
                              else nth_error target t.
Proof.
  intros H1 H2 H3. unfold write, fit_rows, fit_width. rewrite Nat.eqb_refl. cbn [bind].
  rewrite !Nat.min_r by lia. rewrite H3, Nat.eqb_refl. cbn [bind]. rewrite Nat.max_r by lia.
  assert (Ls : length (slice off stop target) = stop - off) by (rewrite length_slice; lia).
  eexists; split; [reflexivity|]. split.
  - rewrite !app_length, map2_length, firstn_length, skipn_length, Ls. lia.
  - intros t. destruct (Nat.leb_spec off t) as [Ho|Ho]; cbn [andb].
    + rewrite nth_error_app2 by (rewrite firstn_length; lia). rewrite firstn_length_le by lia.
      destruct (Nat.ltb_spec t stop).
      * rewrite nth_error_app1 by (rewrite map2_length, Ls; lia). rewrite nth_error_map2.
        rewrite nth_error_slice. destruct (Nat.ltb_spec (t - off) (stop - off)); [|lia].
        replace (off + (t - off)) with t by lia. reflexivity.
      * rewrite nth_error_app2 by (rewrite map2_length, Ls; lia). rewrite map2_length, Ls, H3, Nat.min_id.
        rewrite nth_error_skipn. f_equal. lia.
    + rewrite nth_error_app1 by (rewrite firstn_length; lia). rewrite nth_error_firstn.
      destruct (Nat.ltb_spec t off); [auto|lia].
Qed.

Lemma write_blocks_spec f ns shift bs : forall target lo, ordered lo bs -> streams_ok ns bs ->
  (forall b, In b bs -> shift + k_end b <= length target) ->
  exists r, write_blocks A zero f ns shift target bs = Ok r /\ length r = length target /\
    forall t, nth_error r t = match (if shift <=? t then at_blocks bs (t - shift) else None) with
                              | Some c => option_map (fun x => f x c) (nth_error target t)
                              | None => nth_error target t
                              end.
Proof.
  induction bs as [|b bs IH]; intros target lo Ho Hs He; cbn [write_blocks].
  - exists target. split; [auto|]. split; [auto|]. intros t. cbn. destruct (shift <=? t); auto.
  - destruct Ho as [Ho1 Ho2]. inversion Hs as [|? ? [Hb _] Hs']; subst.
    assert (Hbe : shift + k_end b <= length target) by (apply He; left; auto).
    destruct (write_spec f (k_ns b) target (shift + k_off b) (shift + k_end b) (k_cols b)) as (r1 & E1 & L1 & N1);
      [unfold k_end; lia|auto|unfold k_end; lia|].
    rewrite E1. cbn [bind]. destruct (IH r1 (k_end b) Ho2 Hs') as (r & E & Lr & N).
    { intros x Hx. rewrite L1. apply He. right; auto. }
    exists r. split; [auto|]. split; [lia|]. intros t. rewrite N. cbn [at_blocks].
    destruct (Nat.leb_spec shift t) as [Hst|Hst].
    + unfold at_block. destruct (at_blocks bs (t - shift)) as [c|] eqn:Eb.
      * assert (~ t - shift < k_end b) by (intros Hlt; rewrite (at_blocks_low _ _ _ Ho2) in Eb by auto; discriminate).
        destruct (Nat.leb_spec (k_off b) (t - shift)) as [Hbt|].
        -- rewrite (proj2 (nth_error_None (k_cols b) _)) by (unfold k_end in *; lia).
           rewrite N1. destruct (Nat.ltb_spec t (shift + k_end b)); [lia|]. now rewrite andb_false_r.
        -- unfold k_end in *; lia.
      * rewrite N1. destruct (Nat.leb_spec (shift + k_off b) t), (Nat.leb_spec (k_off b) (t - shift)); try lia; cbn [andb]; [|auto].
        replace (t - (shift + k_off b)) with (t - shift - k_off b) by lia. unfold k_end in *.
        destruct (Nat.ltb_spec t (shift + (k_off b + length (k_cols b)))).
        -- destruct (nth_error target t) eqn:Et; [|apply nth_error_None in Et; lia].
           destruct (nth_error (k_cols b) (t - shift - k_off b)) eqn:Ec; [reflexivity|apply nth_error_None in Ec; lia].
        -- now rewrite (proj2 (nth_error_None (k_cols b) _)) by lia.
    + rewrite N1. destruct (Nat.leb_spec (shift + k_off b) t); [lia|auto].
Qed.

Lemma nth_error_repeat {X} (x : X) n i : nth_error (repeat x n) i = if i <? n then Some x else None.
Proof. revert i; induction n as [|n IH]; intros [|i]; cbn; auto. rewrite IH. reflexivity. Qed.

(** to_dense *)
Lemma to_dense_spec ns s : well_formed ns (Sparse s) -> s <> [] ->
  exists d, to_dense A zero s = Ok d /\ d_ns d = ns /\ length (d_cols d) = sp_n s /\
    forall t, t < sp_n s -> nth_error (d_cols d) t = Some (value zero ns (Sparse s) t).
Proof.
  intros [Hs Ho] Hne. cbn [blocks] in *.
  assert (Hns : sp_ns s = ns) by (destruct s as [|b s]; [congruence|]; inversion Hs as [|? ? [H _] _]; auto).
  unfold to_dense. rewrite Hns.
  destruct (write_blocks_spec (overwrite A) ns 0 s (repeat (zcol ns) (sp_n s)) 0 Ho Hs) as (r & E & Lr & N).
  { intros b Hb. rewrite repeat_length. eapply sp_n_spec; eauto. }
  rewrite E. cbn [bind]. eexists; split; [reflexivity|]. cbn [d_ns d_cols]. rewrite repeat_length in Lr.
  split; [auto|]. split; [auto|]. intros t Ht. rewrite N. cbn [Nat.leb]. rewrite Nat.sub_0_r. unfold value. cbn [blocks].
  rewrite nth_error_repeat. destruct (Nat.ltb_spec t (sp_n s)); [|lia]. destruct (at_blocks s t); reflexivity.
Qed.

(** * from_dense *)
Lemma nth_nth_error {X} (l : list X) t d : t < length l -> nth_error l t = Some (nth t l d).
Proof. intros. now apply nth_error_nth'. Qed.

Lemma from_dense_holds ns cols off : cols <> [] ->
  Forall2 (holds ns (fun t => nth (t - off) cols [])) (map (fun w => (off + fst w, off + snd w)) (windows (nonzero_cols A zero add is_zero cols)))
    (from_dense A zero add is_zero ns cols off).
Proof.
  intros Hne. unfold from_dense. destruct (Nat.eqb_spec (length cols) 0) as [E|_]; [destruct cols; [congruence|discriminate]|].
  set (idx := nonzero_cols A zero add is_zero cols).
  assert (Hsort : StronglySorted lt idx) by apply sorted_filter_seq.
  destruct (windows_props idx Hsort) as [Hg Hin].
  assert (Hw : forall a e, In (a, e) (windows idx) -> a < e -> e <= length cols).
  { intros a e He Hae. assert (In (e - 1) idx) by (apply Hin; exists a, e; split; [auto|lia]).
    unfold idx, nonzero_cols in H. apply filter_In in H as [H _]. apply in_seq in H. lia. }
  clear Hin Hsort. clearbody idx. revert Hg Hw. generalize 0 as lo. induction (windows idx) as [|[a e] ws IH]; intros lo Hg Hw; [constructor|].
  cbn [map]. destruct Hg as (G1 & G2 & G3). constructor.
  - unfold holds; cbn [k_off k_ns k_cols fst snd]. assert (e <= length cols) by (apply (Hw a e); [left; auto|auto]).
    split; [auto|]. split; [rewrite length_slice; lia|]. split; [auto|]. intros t Ht. rewrite nth_error_slice.
    destruct (Nat.ltb_spec (t - (off + a)) (e - a)); [|lia]. replace (a + (t - (off + a))) with (t - off) by lia.
    apply nth_nth_error. lia.
  - eapply IH; [exact G3|]. intros; eapply Hw; [right|]; eauto.
Qed.
Lemma gaps_shift off ws : forall lo, gaps lo ws -> gaps (off + lo) (map (fun w => (off + fst w, off + snd w)) ws).
Proof.
  induction ws as [|[a e] ws IH]; intros lo H; cbn in *; [auto|]. destruct H as (H1 & H2 & H3). split; [lia|]. split; [lia|].
  replace (S (off + e)) with (off + S e) by lia. auto.
Qed.
Lemma in_nonzero cols t : In t (nonzero_cols A zero add is_zero cols) <->
  t < length cols /\ is_zero (colsum A zero add (nth t cols [])) = false.
Proof.
  unfold nonzero_cols. rewrite filter_In, in_seq. destruct (is_zero _); cbn; intuition (try discriminate; lia).
Qed.
Lemma from_dense_at ns cols off t : cols <> [] ->
  at_blocks (from_dense A zero add is_zero ns cols off) t =
  if off <=? t then
    match nth_error cols (t - off) with
    | Some c => if is_zero (colsum A zero add c) then None else Some c
    | None => None
    end
  else None.
Proof.
  intros Hne. rewrite (at_windows _ _ _ _ (from_dense_holds ns cols off Hne)).
  pose proof (windows_props _ (sorted_filter_seq (fun t => negb (is_zero (colsum A zero add (nth t cols [])))) (length cols) 0)) as [Hg Hin].
  fold (nonzero_cols A zero add is_zero cols) in *.
  set (ws := windows (nonzero_cols A zero add is_zero cols)) in *.
  assert (Hex : existsb (fun w => (fst w <=? t) && (t <? snd w)) (map (fun w => (off + fst w, off + snd w)) ws) = true <->
            off <= t /\ In (t - off) (nonzero_cols A zero add is_zero cols)).
  { rewrite existsb_window, Hin. split.
    - intros (a & e & Hi & Ht). apply in_map_iff in Hi as ([a' e'] & Ei & Hi). injection Ei as <- <-. cbn in Ht.
      split; [lia|]. exists a', e'. split; [auto|lia].
    - intros (Ht & a & e & Hi & Hr). exists (off + a), (off + e). split; [|lia]. apply in_map_iff. exists (a, e). auto. }
  rewrite in_nonzero in Hex.
  destruct (Nat.leb_spec off t) as [Ho|Ho].
  - destruct (existsb _ _) eqn:Ee.
    + destruct (proj1 Hex eq_refl) as (_ & H1 & H2). rewrite (nth_nth_error cols (t - off) [] H1). now rewrite H2.
    + destruct (nth_error cols (t - off)) as [c|] eqn:Ec; [|auto].
      assert (Hl : t - off < length cols) by (apply nth_error_Some; congruence).
      rewrite (nth_nth_error cols (t - off) [] Hl) in Ec. injection Ec as Ec. rewrite Ec in Hex.
      destruct (is_zero (colsum A zero add c)); [auto|]. destruct Hex as [_ Hex]. specialize (Hex (conj Ho (conj Hl eq_refl))). discriminate.
  - destruct (existsb _ _) eqn:Ee; [|auto]. destruct (proj1 Hex eq_refl); lia.
Qed.
Lemma from_dense_wf ns cols off : Forall (fun c => length c = ns) cols -> streams_ok ns (from_dense A zero add is_zero ns cols off) /\
  ordered off (from_dense A zero add is_zero ns cols off).
Proof.
  intros Hc. destruct cols as [|c0 cols0] eqn:Ecols.
  - unfold from_dense; cbn. split; [repeat constructor|split; [lia|exact I]].
  - rewrite <- Ecols in *. assert (Hne : cols <> []) by (rewrite Ecols; discriminate). clear Ecols.
    pose proof (from_dense_holds ns cols off Hne) as H.
    pose proof (windows_props _ (sorted_filter_seq (fun t => negb (is_zero (colsum A zero add (nth t cols [])))) (length cols) 0)) as [Hg Hin].
    fold (nonzero_cols A zero add is_zero cols) in *.
    split.
    + eapply streams_windows; [exact H|]. intros a e t Hi Ht. apply in_map_iff in Hi as ([a' e'] & Ei & Hi). injection Ei as <- <-. cbn in Ht.
      assert (Hn : In (t - off) (nonzero_cols A zero add is_zero cols)) by (apply Hin; exists a', e'; split; [auto|lia]).
      apply in_nonzero in Hn as [Hn _]. rewrite Forall_forall in Hc. apply Hc. now apply nth_In.
    + eapply ordered_windows; [exact H|]. apply gaps_shift with (off := off) in Hg. now rewrite Nat.add_0_r in Hg.
Qed.
End S.
