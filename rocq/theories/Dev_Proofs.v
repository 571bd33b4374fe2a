From Coq Require Import List Reals ZArith Bool Arith Lia Lra.
From Coquelicot Require Import Complex.
From Verif Require Import Base BaseLemmas Cplx Cplx_Proofs Signal_Model Signal_Spec Signal_Proofs SignalOps_Proofs Dev_Model Dev_Spec.
Import ListNotations.
Local Open Scope nat_scope.

Lemma complex_laws : laws (RtoC 0) Cplus is_zero.
Proof.
  split; intros z; [apply Cplus_0_l|apply Cplus_0_r|]. unfold is_zero. destruct z as [a b]. cbn [fst snd].
  destruct (Req_EM_T a 0) as [->|Ha]; [destruct (Req_EM_T b 0) as [->|Hb]|]; split; intro H; try discriminate; try reflexivity; injection H; intros; contradiction.
Qed.
Lemma nth_zeros : forall n i, nth i (repeat (RtoC 0) n) (RtoC 0) = RtoC 0.
Proof. induction n as [|n IH]; intros [|i]; cbn; auto. Qed.
Lemma sample_value : forall n d t i, nth i (value (RtoC 0) n (Dense d) t) (RtoC 0) = sample d t i.
Proof.
  intros n d t i. rewrite value_dense. unfold sample. destruct (nth_error (d_cols d) t) as [c|] eqn:E.
  - rewrite (nth_error_nth _ _ _ E). reflexivity.
  - apply nth_error_None in E. rewrite (nth_overflow (d_cols d)) by exact E.
    unfold zcol. rewrite nth_zeros. destruct i; reflexivity.
Qed.
Lemma dense_wf : forall n d, dense_of n d -> well_formed n (Dense d).
Proof. intros n d [H1 H2]. split; cbn; [|auto with arith]. repeat constructor; auto. Qed.
Lemma wf_dense : forall n d, well_formed n (Dense d) -> dense_of n d.
Proof. intros n d [H _]. cbn in H. inversion H as [|b l [H1 H2] _]. split; assumption. Qed.
Lemma nth_map2 : forall (f : C -> C -> C) (a b : list C) i, length a = length b -> f (RtoC 0) (RtoC 0) = RtoC 0 ->
  nth i (map2 f a b) (RtoC 0) = f (nth i a (RtoC 0)) (nth i b (RtoC 0)).
Proof.
  intros f. induction a as [|x a IH]; intros [|y b] i HL Hf; cbn in HL; try discriminate; [destruct i; symmetry; exact Hf|].
  destruct i; cbn; [reflexivity|]. apply IH; [lia|exact Hf].
Qed.
Lemma write_length : forall f ns target off stop bns cols r, off <= stop -> write C (RtoC 0) f ns target off stop bns cols = Ok r -> length r = length target.
Proof.
  intros f ns target off stop bns cols r H E. unfold write in E. destruct (fit_rows _ _ _ _ _) as [c1|]; [|discriminate]. cbn [bind] in E.
  unfold fit_width in E.
  assert (G : forall c2, length c2 = Nat.min (length target) stop - Nat.min (length target) off ->
     length (firstn off target ++ map2 f (slice off stop target) c2 ++ skipn (Nat.max off stop) target) = length target).
  { intros c2 L2. rewrite !app_length, map2_length, firstn_length, skipn_length, length_slice, L2. lia. }
  destruct (Nat.eqb_spec (length c1) (Nat.min (length target) stop - Nat.min (length target) off)) as [L|L]; cbn [bind] in E.
  - injection E as <-. apply G. exact L.
  - destruct c1 as [|c [|c' c1]]; cbn [bind] in E; try discriminate. injection E as <-. apply G. apply repeat_length.
Qed.
Lemma dn_length : forall self added r, no_samples self = false -> dn_superimpose C (RtoC 0) Cplus self (Dense added) 0 = Ok (Dense r) ->
  length (d_cols r) = Nat.max (length (d_cols self)) (length (d_cols added)).
Proof.
  intros self added r Hs E. unfold dn_superimpose in E. unfold no_samples in Hs. rewrite Hs in E. cbn [Z.ltb Z.compare num_streams num_samples blocks add_blocks] in E.
  destruct (write _ _ _ _ _ _ _ _ _) as [w|] eqn:W; [|discriminate]. cbn [bind] in E. injection E as <-. cbn [d_cols].
  apply write_length in W; [|unfold k_end; cbn; lia]. rewrite W, app_length, map_length, repeat_length. lia.
Qed.
Lemma superimpose_sums : forall n a b, 0 < n -> dense_of n a -> dense_of n b -> d_cols a <> [] ->
  exists r, superimpose a b None = Ok r /\ dense_of n r /\ length (d_cols r) = Nat.max (length (d_cols a)) (length (d_cols b)) /\
    forall t i, sample r t i = (sample a t i + sample b t i)%C.
Proof.
  intros n a b Hn Ha Hb Hne. destruct (dn_superimpose_spec C (RtoC 0) Cplus is_zero complex_laws n a (Dense b) 0%Z Hn (dense_wf n a Ha) (proj1 Ha) Hne (dense_wf n b Hb) (proj1 Hb) ltac:(lia))
    as [r [E [Nr [Wr V]]]].
  exists r. unfold superimpose. rewrite E. cbn [bind]. split; [reflexivity|]. split; [apply wf_dense; exact Wr|]. split.
  - apply dn_length; [|exact E]. unfold no_samples. destruct Ha as [-> _]. destruct (Nat.eqb_spec n 0); [lia|]. destruct (d_cols a); [congruence|reflexivity].
  - intros t i. rewrite <- (sample_value n r), <- (sample_value n a), <- (sample_value n b). rewrite V. unfold valueZ.
    destruct (Z.ltb_spec (Z.of_nat t - 0) 0); [lia|]. replace (Z.to_nat (Z.of_nat t - 0)) with t by lia. unfold addcol.
    apply nth_map2; [|apply Cplus_0_l]. rewrite (value_len C (RtoC 0) n (Dense a) t (proj1 (dense_wf n a Ha))), (value_len C (RtoC 0) n (Dense b) t (proj1 (dense_wf n b Hb))). reflexivity.
Qed.
Lemma replace_nth : forall {X} (l : list X) k v i, nth_error (replace k v l) i = if Nat.eqb i k then (match nth_error l i with Some _ => Some v | None => None end) else nth_error l i.
Proof.
  intros X. induction l as [|a l IH]; intros k v i; [destruct k, i; cbn; try reflexivity; destruct (Nat.eqb i k); reflexivity|].
  destruct k as [|k], i as [|i]; cbn [replace nth_error Nat.eqb]; try reflexivity. apply IH.
Qed.
Lemma replace_length : forall {X} (l : list X) k v, length (replace k v l) = length l.
Proof. intros X. induction l as [|a l IH]; intros [|k] v; cbn; auto. Qed.
Lemma total_app : forall {A} (f : A -> C) l m, total f (l ++ m) = (total f l + total f m)%C.
Proof. intros A f l m. induction l as [|a l IH]; cbn [total app]; [symmetry; apply Cplus_0_l|]. rewrite IH. apply Cplus_assoc. Qed.
Lemma sample_empty : forall d t i, d_cols d = [] -> sample d t i = RtoC 0.
Proof. intros d t i E. unfold sample. rewrite E. destruct t, i; reflexivity. Qed.
Lemma total_silent : forall l t i, (forall d, In d l -> d_cols d = []) -> total (fun d => sample d t i) l = RtoC 0.
Proof. intros l t i. induction l as [|d l IH]; intro H; [reflexivity|]. cbn [total]. rewrite IH by (intros; apply H; right; assumption). rewrite sample_empty by (apply H; left; reflexivity). apply Cplus_0_l. Qed.
Lemma firstn_S : forall {X} (l : list X) k, firstn (S k) l = firstn k l ++ match nth_error l k with Some x => [x] | None => [] end.
Proof. intros X. induction l as [|a l IH]; intros [|k]; try reflexivity. cbn [firstn nth_error app]. f_equal. apply IH. Qed.
Lemma nth_error_firstn_lt : forall {X} (l : list X) k i, i < k -> nth_error (firstn k l) i = nth_error l i.
Proof. intros X. induction l as [|a l IH]; intros [|k] [|i] H; try lia; try reflexivity. cbn. apply IH. lia. Qed.
Lemma Forall2_imp : forall {X Y} (P Q : X -> Y -> Prop) l l', (forall x y, P x y -> Q x y) -> Forall2 P l l' -> Forall2 Q l l'.
Proof. intros X Y P Q l l' H F. induction F; constructor; auto. Qed.
Lemma present_app : forall a b, present (a ++ b) = present a ++ present b.
Proof. intros. unfold present. apply flat_map_app. Qed.

Section Mixing.
Variables (n : nat) (ts : list (option cdense)).
Hypothesis Hn : 0 < n.
Hypothesis Hts : forall d, In (Some d) ts -> dense_of n d.

Definition longest (l : list cdense) : nat := list_max (map (fun d => length (d_cols d)) l).
Record inv (k : nat) (st : list (option cdense) * mixture) : Prop := {
  i_len : length (fst st) = length ts;
  i_rest : forall i, k <= i -> nth_error (fst st) i = nth_error ts i;
  i_own : forall j, snd st = Own j -> j < k /\ exists d, nth_error (fst st) j = Some (Some d);
  i_dense : dense_of n (current n (fst st) (snd st));
  i_sum : forall t i, sample (current n (fst st) (snd st)) t i = total (fun d => sample d t i) (present (firstn k ts));
  i_long : length (d_cols (current n (fst st) (snd st))) = longest (present (firstn k ts));
  i_silent : d_cols (current n (fst st) (snd st)) = [] -> first_sounding ts k;
  i_first : forall j, snd st = Own j -> d_cols (current n (fst st) (snd st)) <> [] -> first_sounding ts j;
  i_kept : forall i, nth_error (fst st) i <> nth_error ts i -> first_sounding ts i }.

Lemma no_samples_spec : forall d, dense_of n d -> no_samples d = true <-> d_cols d = [].
Proof.
  intros d [H _]. unfold no_samples. rewrite H. destruct (Nat.eqb_spec n 0); [lia|]. cbn [orb].
  destruct (d_cols d); cbn; split; congruence.
Qed.
Lemma longest_app : forall a b, longest (a ++ b) = Nat.max (longest a) (longest b).
Proof. intros. unfold longest. rewrite map_app, list_max_app. reflexivity. Qed.
Lemma step_inv : forall k st, k < length ts -> inv k st -> exists st', mix_step n k None st = Ok st' /\ inv (S k) st'.
Proof.
  intros k [ts' m] Hk I. destruct I as [I1 I2 I3 I4 I5 I6 I7 I8 I9]. cbn [fst snd] in *. unfold mix_step.
  rewrite I2 by lia. destruct (nth_error ts k) as [[t|]|] eqn:Et.
  2:{ exists (ts', m). split; [reflexivity|].
      assert (Ef : present (firstn (S k) ts) = present (firstn k ts)) by (rewrite firstn_S, Et, present_app; cbn [present flat_map]; apply app_nil_r).
      constructor; cbn [fst snd]; auto.
      - intros i Hi. apply I2. lia.
      - intros j Hj. destruct (I3 j Hj) as [A B]. split; [lia|exact B].
      - intros t0 i. rewrite Ef. apply I5.
      - rewrite Ef. exact I6.
      - intros H i d Hi Hd. destruct (Nat.eq_dec i k) as [->|]; [congruence|]. apply (I7 H i d); [lia|exact Hd]. }
  2:{ apply nth_error_None in Et. lia. }
  assert (Dt : dense_of n t) by (apply Hts; eapply nth_error_In; exact Et).
  assert (Ep : present (firstn (S k) ts) = present (firstn k ts) ++ [t]) by (rewrite firstn_S, Et, present_app; reflexivity).
  set (c := current n ts' m) in *.
  destruct (no_samples c) eqn:Ec.
  - apply (no_samples_spec c I4) in Ec. exists (ts', Own k). split; [reflexivity|].
    assert (Ek : nth_error ts' k = Some (Some t)) by (rewrite I2 by lia; exact Et).
    assert (S0 : forall d, In d (present (firstn k ts)) -> d_cols d = []).
    { intros d Hd. unfold present in Hd. apply in_flat_map in Hd as [o [Ho Hd]]. destruct o as [d'|]; [|destruct Hd]. destruct Hd as [->|[]].
      apply In_nth_error in Ho as [i Hi]. assert (i < k). { assert (i < length (firstn k ts)) by (apply nth_error_Some; congruence). rewrite firstn_length in *. lia. }
      apply (I7 Ec i d); [assumption|]. rewrite <- Hi. symmetry. apply nth_error_firstn_lt. assumption. }
    constructor; cbn [fst snd current]; rewrite ?Ek; auto.
    + intros i Hi. apply I2. lia.
    + intros j Hj. injection Hj as <-. split; [lia|]. exists t. exact Ek.
    + intros t0 i. rewrite Ep, total_app, total_silent by exact S0. cbn [total]. rewrite Cplus_0_l, Cplus_0_r. reflexivity.
    + rewrite Ep, longest_app, <- I6, Ec. unfold longest. cbn. lia.
    + intros H i d Hi Hd. destruct (Nat.eq_dec i k) as [->|]; [congruence|]. apply (I7 Ec i d); [lia|exact Hd].
    + intros j Hj _. injection Hj as <-. exact (I7 Ec).
  - assert (Nc : d_cols c <> []) by (intro E; apply (no_samples_spec c I4) in E; congruence).
    destruct (superimpose_sums n c t Hn I4 Dt Nc) as [v [Ev [Dv [Lv Sv]]]]. rewrite Ev. cbn [bind].
    assert (Sum : forall t0 i, sample v t0 i = total (fun d => sample d t0 i) (present (firstn (S k) ts))).
    { intros t0 i. rewrite Sv, I5, Ep, total_app. cbn [total]. rewrite Cplus_0_r. reflexivity. }
    assert (Long : length (d_cols v) = longest (present (firstn (S k) ts))).
    { rewrite Lv, I6, Ep, longest_app. unfold longest at 3. cbn. lia. }
    assert (Nv : d_cols v <> []). { intro E. rewrite E in Lv. cbn [length] in Lv. apply Nc. apply length_zero_iff_nil. lia. }
    assert (FreshI : inv (S k) (ts', Fresh v)).
    { constructor; cbn [fst snd current]; auto.
      all: try (intros j Hj; discriminate). all: try (intros i Hi; apply I2; lia). }
    destruct m as [|j|d]; [exists (ts', Fresh v); split; [reflexivity|exact FreshI]| |exists (ts', Fresh v); split; [reflexivity|exact FreshI]].
    destruct (fits c t); [|exists (ts', Fresh v); split; [reflexivity|exact FreshI]].
    exists (replace j (Some v) ts', Own j). split; [reflexivity|]. destruct (I3 j eq_refl) as [Hj [dj Ej]].
    assert (Ej' : nth_error (replace j (Some v) ts') j = Some (Some v)) by (rewrite replace_nth, Nat.eqb_refl, Ej; reflexivity).
    constructor; cbn [fst snd current]; rewrite ?Ej'; auto.
    + rewrite replace_length. exact I1.
    + intros i Hi. rewrite replace_nth. destruct (Nat.eqb_spec i j); [lia|]. apply I2. lia.
    + intros j' Hj'. injection Hj' as <-. split; [lia|]. exists v. exact Ej'.
    + intros q Hq. rewrite replace_nth in Hq. destruct (Nat.eqb_spec q j) as [Eq|Nq]; [rewrite Eq; apply I8; [reflexivity|exact Nc]|apply I9; exact Hq].
Qed.
Lemma mix_inv : forall m k st, k + m = length ts -> inv k st -> exists st', mix_from n k (repeat None m) st = Ok st' /\ inv (k + m) st'.
Proof.
  induction m as [|m IH]; intros k st Hk I; cbn [repeat mix_from]; [exists st; rewrite Nat.add_0_r; auto|].
  destruct (step_inv k st ltac:(lia) I) as [st1 [E1 J1]]. rewrite E1. cbn [bind]. destruct (IH (S k) st1 ltac:(lia) J1) as [st2 [E2 J2]].
  exists st2. replace (k + S m) with (S k + m) by lia. auto.
Qed.
Lemma mix_spec : exists d after, mix n ts (repeat None (length ts)) = Ok (d, after) /\ dense_of n d /\
  length (d_cols d) = longest (present ts) /\ (forall t i, sample d t i = total (fun x => sample x t i) (present ts)) /\
  length after = length ts /\ (forall i, nth_error after i <> nth_error ts i -> first_sounding ts i).
Proof.
  destruct (mix_inv (length ts) 0 (ts, Initial) eq_refl) as [[after m] [E I]].
  - constructor; cbn [fst snd current firstn present flat_map total]; auto; try (intros; discriminate).
    + split; [reflexivity|constructor].
    + intros t i. apply sample_empty. reflexivity.
    + intros _ i d Hi. lia.
    + intros i Hi. congruence.
  - unfold mix. rewrite E. cbn [bind fst snd]. destruct I as [I1 I2 I3 I4 I5 I6 I7 I8 I9]. cbn [fst snd Nat.add] in *. rewrite firstn_all in I5, I6.
    exists (current n after m), after. auto 10.
Qed.
End Mixing.

(** ** The hardware *)
Lemma rf_pass_same : forall n d, dense_of n d -> rf_pass n d = Ok d.
Proof.
  intros n [ns cs] [H1 H2]. cbn [d_ns d_cols] in *. subst ns. unfold rf_pass. cbn [d_ns d_cols]. rewrite Nat.ltb_irrefl. f_equal. f_equal.
  rewrite <- (map_id cs) at 2. apply map_ext_in. intros c Hc. rewrite Forall_forall in H2. apply firstn_all2. rewrite (H2 c Hc). lia.
Qed.
Lemma sample_weigh : forall w d t i, dense_of (length w) d -> sample (weigh w d) t i = (nth i w (RtoC 0) * sample d t i)%C.
Proof.
  intros w d t i [_ H]. unfold sample, weigh. cbn [d_cols]. destruct (Nat.lt_ge_cases t (length (d_cols d))) as [L|L].
  - rewrite (nth_indep _ [] (map2 Cmult w [])) by (rewrite map_length; exact L). rewrite map_nth. apply nth_map2; [|apply Cmult_0_l].
    rewrite Forall_forall in H. symmetry. apply H. apply nth_In. exact L.
  - rewrite (nth_overflow (map _ _)) by (rewrite map_length; exact L). rewrite (nth_overflow (d_cols d)) by exact L. destruct i; cbn [nth]; rewrite Cmult_0_r; reflexivity.
Qed.
Lemma sample_scale : forall a d t i, sample (scale a d) t i = (a * sample d t i)%C.
Proof.
  intros a d t i. unfold sample, scale. cbn [d_cols]. destruct (Nat.lt_ge_cases t (length (d_cols d))) as [L|L].
  - rewrite (nth_indep _ [] (map (Cmult a) [])) by (rewrite map_length; exact L). rewrite map_nth.
    destruct (Nat.lt_ge_cases i (length (nth t (d_cols d) []))) as [M|M].
    + rewrite (nth_indep _ (RtoC 0) (Cmult a (RtoC 0))) by (rewrite map_length; exact M). apply map_nth.
    + rewrite (nth_overflow (map _ _)) by (rewrite map_length; exact M). rewrite (nth_overflow (nth t (d_cols d) [])) by exact M. symmetry. apply Cmult_0_r.
  - rewrite (nth_overflow (map _ _)) by (rewrite map_length; exact L). rewrite (nth_overflow (d_cols d)) by exact L. destruct i; cbn [nth]; rewrite Cmult_0_r; reflexivity.
Qed.

(** ** Reception *)
Lemma mix_impinging_spec : forall n l s, 0 < n -> well_formed n (Sparse s) -> sp_ns s = n ->
  Forall (fun p => well_formed n (fst p) /\ num_streams (fst p) = n) l ->
  exists r, mix_impinging s l = Ok r /\ well_formed n (Sparse r) /\ sp_ns r = n /\
    forall t i, stream_of (Sparse r) n t i = (stream_of (Sparse s) n t i + total (fun p => impinging_at n p t i) l)%C.
Proof.
  intros n l. induction l as [|[x d] l IH]; intros s Hn Hw Hs HF; cbn [mix_impinging total].
  - exists s. split; [reflexivity|]. split; [exact Hw|]. split; [exact Hs|]. intros. rewrite Cplus_0_r. reflexivity.
  - inversion HF as [|p l' [Hx Nx] Hl]; subst p l'. cbn [fst] in *.
    assert (Hne : s <> []) by (intros ->; cbn in Hs; lia).
    destruct (superimpose_spec C (RtoC 0) Cplus is_zero complex_laws n s x d Hn Hw Hne Hx Nx) as [r [after [E [Wr [Nr [V _]]]]]].
    unfold sp_add. rewrite E. cbn [bind fst]. destruct (IH r Hn Wr Nr Hl) as [r2 [E2 [W2 [N2 V2]]]].
    exists r2. split; [exact E2|]. split; [exact W2|]. split; [exact N2|]. intros t i. rewrite V2. rewrite Cplus_assoc. f_equal.
    unfold stream_of at 1. rewrite V. unfold addcol. rewrite nth_map2; [reflexivity| |apply Cplus_0_l].
    rewrite (value_len C (RtoC 0) n (Sparse s) t (proj1 Hw)). unfold valueZ. destruct (Z.ltb _ 0); [symmetry; apply repeat_length|].
    symmetry. apply value_len. exact (proj1 Hx).
Qed.
Lemma gaps_in : forall ws lo a e, gaps lo ws -> In (a, e) ws -> lo <= a /\ a < e.
Proof.
  induction ws as [|[x y] ws IH]; intros lo a e G H; [destruct H|]. cbn in G. destruct G as [G1 [G2 G3]]. destruct H as [E|H]; [injection E as -> ->; lia|].
  destruct (IH _ _ _ G3 H). lia.
Qed.
Lemma gaps_one : forall ws M, gaps 0 ws -> (forall t, (exists a e, In (a, e) ws /\ a <= t < e) <-> t < M) -> ws = if Nat.eqb M 0 then [] else [(0, M)].
Proof.
  intros ws M G H. destruct ws as [|[a e] ws].
  - destruct (Nat.eqb_spec M 0) as [_|N]; [reflexivity|]. destruct (proj2 (H 0) ltac:(lia)) as [a [e [[] _]]].
  - cbn [gaps] in G. destruct G as [_ [G2 G3]].
    assert (Hae : forall t, a <= t < e -> t < M) by (intros t Ht; apply H; exists a, e; split; [left; reflexivity|exact Ht]).
    pose proof (Hae a ltac:(lia)). pose proof (Hae (e - 1) ltac:(lia)). destruct (Nat.eqb_spec M 0); [lia|].
    assert (a = 0). { destruct (proj2 (H 0) ltac:(lia)) as [a' [e' [[E|Hin] Ht]]]; [injection E as -> ->; lia|]. pose proof (gaps_in _ _ _ _ G3 Hin). lia. }
    assert (M <= e). { destruct (Nat.le_gt_cases M e); [assumption|]. destruct (proj2 (H e) ltac:(lia)) as [a' [e' [[E|Hin] Ht]]]; [injection E as -> ->; lia|]. pose proof (gaps_in _ _ _ _ G3 Hin). lia. }
    replace M with e by lia. subst a. destruct ws as [|[a' e'] ws]; [reflexivity|].
    pose proof (gaps_in _ _ a' e' G3 (or_introl eq_refl)). assert (a' < M) by (apply H; exists a', e'; split; [right; left; reflexivity|lia]). lia.
Qed.
Lemma one_window : forall (b : block C) bs lo hi, k_off b = 0 -> (forall t, at_blocks bs t <> None <-> lo <= t < hi) -> lo <= hi -> lo <= k_end b ->
  blocks_union C [b] bs = if Nat.eqb (Nat.max (k_end b) hi) 0 then [] else [(0, Nat.max (k_end b) hi)].
Proof.
  intros b bs lo hi Hb H L1 L2. destruct (union_windows C [b] bs) as [G W]. apply gaps_one; [exact G|].
  intro t. rewrite <- existsb_window, W, H. cbn [at_blocks].
  assert (E : match at_block b t with Some c => Some c | None => None end <> None <-> t < k_end b).
  { destruct (at_block b t) as [c|] eqn:E; [apply at_block_Some in E; split; [lia|discriminate]|]. apply at_block_None in E. split; [congruence|lia]. }
  rewrite E. lia.
Qed.
Lemma unify_windows : forall ns sns s added u, unify C (RtoC 0) Cplus ns sns s added = Ok u ->
  Forall2 (fun w b => k_off b = fst w /\ length (k_cols b) = snd w - fst w) (blocks_union C s added) u.
Proof.
  intros ns sns s added u E. unfold unify in E. apply mapM_Forall2_inv in E. eapply Forall2_imp; [|exact E]. intros w b H. cbn beta in H.
  destruct (add_overlap _ _ _ _ _ _ _ s) as [a1|]; [|discriminate]. cbn [bind] in H. destruct (add_overlap _ _ _ _ _ _ _ added) as [a2|]; [|discriminate]. cbn [bind] in H.
  unfold new_block in H. destruct (_ && _)%bool eqn:B; [|discriminate]. injection H as <-. cbn [k_off k_cols]. split; [reflexivity|].
  apply andb_prop in B as [_ B]. apply Nat.eqb_eq in B. congruence.
Qed.
Lemma dense_step : forall n (b : block C) y d r after, 0 < n -> well_formed n (Sparse [b]) -> k_off b = 0 -> dense_of n y -> (d <= Z.of_nat (k_end b))%Z ->
  sp_add [b] (Dense y) d None = Ok (r, after) ->
  exists b', r = [b'] /\ k_off b' = 0 /\ Z.of_nat (k_end b') = Z.max (Z.of_nat (k_end b)) (d + Z.of_nat (length (d_cols y))).
Proof.
  intros n b y d r after Hn Wb Hb Hy Hd E.
  assert (Nb : sp_ns [b] = n) by (destruct Wb as [W _]; inversion W as [|x l [H _] _]; exact H).
  set (hi := Z.to_nat (d + Z.of_nat (length (d_cols y)))).
  assert (Fin : forall idx bs, (forall t, at_blocks bs t <> None <-> Z.to_nat d <= t < hi) -> idx <> [] ->
     match idx with
            | [] => Ok ([b], Dense y)
            | _ => if sp_ns [b] <=? list_max idx then Raise ValueError
                   else do u <- unify C (RtoC 0) Cplus (length idx) (sp_ns [b]) [b] bs;
                        Ok (match u with [] => from_dense C (RtoC 0) Cplus is_zero (sp_ns [b]) [] 0 | _ => u end, Dense y)
            end = Ok (r, after) -> exists b', r = [b'] /\ k_off b' = 0 /\ k_end b' = Nat.max (k_end b) hi).
  { intros idx bs Hat Hidx F. destruct idx as [|i0 idx]; [congruence|]. destruct (_ <=? _); [discriminate|].
    destruct (unify _ _ _ _ _ _ _) as [u|] eqn:U; [|discriminate]. cbn [bind] in F. injection F as <- _.
    apply unify_windows in U. rewrite (one_window b bs (Z.to_nat d) hi Hb Hat) in U by (subst hi; lia).
    destruct (Nat.eqb_spec (Nat.max (k_end b) hi) 0) as [Z0|Z0].
    - inversion U. subst u. exists (mkB 0 (sp_ns [b]) []). split; [reflexivity|]. split; [reflexivity|]. rewrite Z0. reflexivity.
    - inversion U as [|w b' ws l [H1 H2] H3]. subst w ws u. inversion H3. subst l. exists b'. cbn [fst snd] in *. split; [reflexivity|]. split; [exact H1|].
      unfold k_end at 1. lia. }
  assert (Fin' : forall idx bs, (forall t, at_blocks bs t <> None <-> Z.to_nat d <= t < hi) -> idx <> [] ->
     match idx with
            | [] => Ok ([b], Dense y)
            | _ => if sp_ns [b] <=? list_max idx then Raise ValueError
                   else do u <- unify C (RtoC 0) Cplus (length idx) (sp_ns [b]) [b] bs;
                        Ok (match u with [] => from_dense C (RtoC 0) Cplus is_zero (sp_ns [b]) [] 0 | _ => u end, Dense y)
            end = Ok (r, after) -> exists b', r = [b'] /\ k_off b' = 0 /\ Z.of_nat (k_end b') = Z.max (Z.of_nat (k_end b)) (d + Z.of_nat (length (d_cols y)))).
  { intros idx bs A1 A2 A3. destruct (Fin idx bs A1 A2 A3) as [b' [B1 [B2 B3]]]. exists b'. split; [exact B1|]. split; [exact B2|]. subst hi. lia. }
  assert (At : forall t, at_blocks (blocks (Dense y)) t <> None <-> t < length (d_cols y)).
  { intro t. cbn [blocks at_blocks]. unfold at_block. cbn [k_off k_cols]. cbn [Nat.leb]. rewrite Nat.sub_0_r. rewrite <- nth_error_Some. destruct (nth_error (d_cols y) t); tauto. }
  assert (Idx : forall k, 0 < k -> seq 0 k <> []) by (intros [|k] H; [lia|discriminate]).
  unfold sp_add, sp_superimpose in E. destruct (Z.ltb_spec d 0) as [D|D].
  - pose proof (getitem_spec C (RtoC 0) n (Dense y) (Some (Z.to_nat (- d))) None (dense_wf n y Hy) (proj1 Hy)) as HG.
    pose proof (getitem_streams C (RtoC 0) n (Dense y) (Some (Z.to_nat (- d))) None (proj1 Hy) ltac:(discriminate)) as HS.
    cbn [option_map] in HG, HS. rewrite Z2Nat.id in HG, HS by lia. cbn zeta in HG. destruct HG as [Hw3 Hat].
    set (a1 := getitem C (RtoC 0) (Dense y) (Some (- d)%Z) None) in *.
    assert (Hat' : forall t, at_blocks (blocks a1) t <> None <-> Z.to_nat d <= t < hi) by (intro t; rewrite Hat, At; subst hi; lia).
    destruct (Nat.eqb_spec (num_samples a1) 0) as [N|N].
    + injection E as <- _. exists b. split; [reflexivity|]. split; [exact Hb|].
      destruct (Nat.eq_dec hi 0) as [H0|H0]; [subst hi; lia|]. exfalso. assert (H1 : at_blocks (blocks a1) 0 <> None) by (apply Hat'; lia).
      destruct (at_blocks (blocks a1) 0) eqn:Q; [|congruence]. apply (at_num_samples C n) in Q; [lia|exact Hw3].
    + refine (Fin' _ _ Hat' _ E). apply Idx. rewrite (HS N). exact Hn.
  - destruct (Z.ltb_spec 0 d) as [D'|D'].
    + refine (Fin' _ _ _ _ E); [|apply Idx; cbn; destruct Hy as [-> _]; exact Hn].
      intro t. rewrite at_shift. destruct (Nat.leb_spec (Z.to_nat d) t); [|split; [congruence|lia]]. rewrite At. subst hi. lia.
    + refine (Fin' _ _ _ _ E); [|apply Idx; cbn; destruct Hy as [-> _]; exact Hn]. intro t. rewrite At. subst hi. lia.
Qed.
Lemma continuous_single : forall n l (b : block C) until, 0 < n -> well_formed n (Sparse [b]) -> k_off b = 0 -> Z.of_nat (k_end b) = until -> continuous n until l ->
  exists b', mix_impinging [b] l = Ok [b'] /\ k_off b' = 0.
Proof.
  intros n l. induction l as [|[x d] l IH]; intros b until Hn Wb Hb He Hc; cbn [mix_impinging]; [exists b; auto|].
  cbn [continuous] in Hc. destruct Hc as [[y [-> Hy]] [Hd Hc]].
  destruct (superimpose_spec C (RtoC 0) Cplus is_zero complex_laws n [b] (Dense y) d Hn Wb ltac:(discriminate) (dense_wf n y Hy) (proj1 Hy)) as [r [after [E [Wr [Nr _]]]]].
  unfold sp_add. rewrite E. cbn [bind fst]. destruct (dense_step n b y d r after Hn Wb Hb Hy ltac:(lia) E) as [b' [-> [B1 B2]]].
  apply (IH b' (Z.max until (d + Z.of_nat (num_samples (Dense y))))); auto. cbn [num_samples]. lia.
Qed.
Lemma to_dense_samples : forall n s, well_formed n (Sparse s) -> s <> [] ->
  exists d, to_dense C (RtoC 0) s = Ok d /\ dense_of n d /\ length (d_cols d) = sp_n s /\ forall t i, sample d t i = stream_of (Sparse s) n t i.
Proof.
  intros n s W Hne. destruct (to_dense_spec C (RtoC 0) n s W Hne) as [d [E [Nd [Ld V]]]].
  exists d. split; [exact E|]. split; [split; [exact Nd|]|split; [exact Ld|]].
  - apply Forall_forall. intros c Hc. apply In_nth_error in Hc as [t Ht]. assert (t < sp_n s) by (rewrite <- Ld; apply nth_error_Some; congruence).
    rewrite V in Ht by assumption. injection Ht as <-. apply value_len. exact (proj1 W).
  - intros t i. unfold sample, stream_of. destruct (Nat.lt_ge_cases t (sp_n s)) as [L|L].
    + rewrite (nth_error_nth (d_cols d) t [] (V t L)). reflexivity.
    + rewrite (nth_overflow (d_cols d)) by lia. unfold value. cbn [blocks]. destruct (at_blocks s t) as [c|] eqn:A.
      * apply at_blocks_lt in A; [lia|exact (proj2 W)].
      * rewrite nth_zeros. destruct i; reflexivity.
Qed.
Lemma start_wf : forall n, well_formed n (Sparse (from_dense C (RtoC 0) Cplus is_zero n [] 0)).
Proof. intro n. split; cbn; repeat constructor. Qed.
Lemma start_silent : forall n t i, stream_of (Sparse (from_dense C (RtoC 0) Cplus is_zero n [] 0)) n t i = RtoC 0.
Proof.
  intros n t i. unfold stream_of, value. cbn. unfold at_block. cbn. replace (nth_error (@nil (list C)) (t - 0)) with (@None (list C)) by (destruct (t - 0); reflexivity).
  apply nth_zeros.
Qed.
Lemma mixed_spec : forall n l, 0 < n -> Forall (fun p => well_formed n (fst p) /\ num_streams (fst p) = n) l ->
  exists s, mixed_signal n l = Ok s /\ well_formed n (Sparse s) /\ sp_ns s = n /\ s <> [] /\
    forall t i, stream_of (Sparse s) n t i = total (fun p => impinging_at n p t i) l.
Proof.
  intros n l Hn HF. destruct (mix_impinging_spec n l _ Hn (start_wf n) eq_refl HF) as [r [E [W [N V]]]].
  exists r. split; [exact E|]. split; [exact W|]. split; [exact N|]. split; [intros ->; cbn in N; lia|].
  intros t i. rewrite V, start_silent. apply Cplus_0_l.
Qed.
Lemma continuous_wf : forall n l u, continuous n u l -> Forall (fun p => well_formed n (fst p) /\ num_streams (fst p) = n) l.
Proof.
  intros n l. induction l as [|[x d] l IH]; intros u H; constructor.
  - destruct H as [[y [-> Hy]] _]. split; [apply dense_wf; exact Hy|exact (proj1 Hy)].
  - destruct H as [_ [_ H]]. exact (IH _ H).
Qed.
Lemma continuous_mixed : forall n l, 0 < n -> continuous n 0 l -> exists b, mixed_signal n l = Ok [b].
Proof.
  intros n l Hn Hc. destruct (continuous_single n l (mkB 0 n []) 0 Hn) as [b [E _]]; [apply start_wf|reflexivity|reflexivity|exact Hc|].
  exists b. exact E.
Qed.
(** Two signals with silence in between remain two blocks *)
Lemma gap_blocks : forall n x y d s, 0 < n -> dense_of n x -> dense_of n y -> d_cols x <> [] -> d_cols y <> [] -> (Z.of_nat (length (d_cols x)) < d)%Z ->
  mixed_signal n [(Dense x, 0%Z); (Dense y, d)] = Ok s -> 2 <= length s.
Proof.
  intros n x y d s Hn Hx Hy Nx Ny Hd E. unfold mixed_signal in E. cbn [mix_impinging] in E.
  set (b0 := mkB 0 n [] : block C) in *. change (from_dense C (RtoC 0) Cplus is_zero n [] 0) with [b0] in E.
  destruct (superimpose_spec C (RtoC 0) Cplus is_zero complex_laws n [b0] (Dense x) 0%Z Hn (start_wf n) ltac:(discriminate) (dense_wf n x Hx) (proj1 Hx)) as [r [a1 [E1 [Wr [Nr _]]]]].
  change (sp_superimpose C (RtoC 0) Cplus is_zero) with sp_add in E1. rewrite E1 in E. cbn [bind fst] in E.
  destruct (dense_step n b0 x 0%Z r a1 Hn (start_wf n) eq_refl Hx ltac:(cbn; lia) E1) as [b [-> [B1 B2]]].
  assert (Ke : k_end b = length (d_cols x)) by (cbn in B2; lia).
  destruct (sp_add [b] (Dense y) d None) as [[r2 a2]|] eqn:E2; [|discriminate]. cbn [bind fst] in E. injection E as ->.
  unfold sp_add, sp_superimpose in E2. destruct (Z.ltb_spec d 0); [lia|]. destruct (Z.ltb_spec 0 d); [|lia].
  cbn [num_streams] in E2. destruct Hy as [Hy1 Hy2]. rewrite Hy1 in E2. destruct n as [|m]; [lia|]. remember (S m) as n. replace (seq 0 n) with (0 :: seq 1 m) in E2 by (subst n; reflexivity).
  destruct (_ <=? _); [discriminate|]. destruct (unify _ _ _ _ _ _ _) as [u|] eqn:U; [|discriminate]. cbn [bind] in E2. injection E2 as E2 _.
  apply unify_windows in U. set (bs := map _ _) in U. destruct (union_windows C [b] bs) as [G W].
  assert (At : forall t, at_blocks bs t <> None <-> Z.to_nat d <= t < Z.to_nat d + length (d_cols y)).
  { intro t. subst bs. rewrite at_shift. destruct (Nat.leb_spec (Z.to_nat d) t); [|split; [congruence|lia]].
    cbn [blocks at_blocks]. unfold at_block. cbn [k_off k_cols Nat.leb]. rewrite Nat.sub_0_r. pose proof (nth_error_Some (d_cols y) (t - Z.to_nat d)) as Q.
    destruct (nth_error (d_cols y) (t - Z.to_nat d)); [assert (t - Z.to_nat d < length (d_cols y)) by (apply Q; congruence); split; [lia|congruence]|].
    split; [congruence|]. intro Hrange. exfalso. apply (proj2 Q); [lia|reflexivity]. }
  assert (Atb : forall t, at_blocks [b] t <> None <-> t < length (d_cols x)).
  { intro t. cbn [at_blocks]. destruct (at_block b t) as [c|] eqn:Q; [apply at_block_Some in Q; split; [lia|discriminate]|]. apply at_block_None in Q. split; [congruence|lia]. }
  assert (Lx : 0 < length (d_cols x)) by (destruct (d_cols x); [congruence|cbn; lia]). assert (Ly : 0 < length (d_cols y)) by (destruct (d_cols y); [congruence|cbn; lia]).
  assert (L2 : 2 <= length (blocks_union C [b] bs)).
  { assert (W0 := proj2 (W 0) (or_introl (proj2 (Atb 0) Lx))). assert (Wd := proj2 (W (Z.to_nat d)) (or_intror (proj2 (At (Z.to_nat d)) ltac:(lia)))).
    apply existsb_window in W0 as [a0 [e0 [I0 T0]]]. apply existsb_window in Wd as [ad [ed [Id Td]]].
    destruct (blocks_union C [b] bs) as [|w0 [|w1 ws]] eqn:EW; [destruct I0| |cbn; lia].
    destruct I0 as [I0|[]], Id as [Id|[]]. rewrite I0 in Id. injection Id as <- <-.
    assert (X : existsb (fun w => (fst w <=? length (d_cols x)) && (length (d_cols x) <? snd w)) [w0] = true) by (apply existsb_window; exists a0, e0; split; [left; exact I0|lia]).
    apply W in X. rewrite Atb, At in X. lia. }
  pose proof (Forall2_len _ _ _ U) as LU. destruct u as [|u0 u]; [rewrite LU in L2; cbn [length] in L2; lia|]. assert (s = u0 :: u) as -> by (symmetry; exact E2). rewrite <- LU. exact L2.
Qed.

(** ** Selected ports *)
Lemma nth_cols_map2 : forall (f : list C -> list C -> list C) a b t, t < length a -> t < length b -> nth t (map2 f a b) [] = f (nth t a []) (nth t b []).
Proof. intros f. induction a as [|x a IH]; intros [|y b] [|t] Ha Hb; cbn in Ha, Hb; try lia; [reflexivity|]. cbn. apply IH; lia. Qed.
Lemma superimpose_fewer : forall n k a b idx, 0 < n -> k <= n -> dense_of n a -> dense_of k b -> (forall i, In i idx -> i < k) ->
  exists r, superimpose a b (Some idx) = Ok r /\ dense_of n r /\ length (d_cols r) = Nat.max (length (d_cols a)) (length (d_cols b)) /\
    forall t i, sample r t i = (sample a t i + if selects (Some idx) i then sample b t i else RtoC 0)%C.
Proof.
  intros n k a b idx Hn Hkn Ha Hb Hi. destruct Ha as [Na Ca], Hb as [Nb Cb]. unfold superimpose. rewrite Na, Nb, (Nat.max_l n k) by exact Hkn.
  replace (existsb _ idx) with false.
  2:{ symmetry. apply not_true_iff_false. intros K. apply existsb_exists in K as [i [Hin K]]. specialize (Hi i Hin). apply orb_true_iff in K. rewrite !Nat.leb_le in K. lia. }
  set (L := Nat.max (length (d_cols a)) (length (d_cols b))).
  set (base := map (fun c => c ++ repeat (RtoC 0) (n - n)) (d_cols a) ++ repeat (repeat (RtoC 0) n) (L - length (d_cols a))).
  assert (Lb : length base = L) by (unfold base; rewrite app_length, map_length, repeat_length; lia).
  assert (Cbase : forall t, t < L -> length (nth t base []) = n /\ forall i, nth i (nth t base []) (RtoC 0) = sample a t i).
  { intros t Ht. unfold base, sample. rewrite Nat.sub_diag. rewrite (map_ext _ (fun c => c)) by (intros; apply app_nil_r). rewrite map_id.
    destruct (lt_dec t (length (d_cols a))) as [K|K].
    - rewrite app_nth1 by exact K. split; [|reflexivity]. rewrite Forall_forall in Ca. apply Ca. apply nth_In. exact K.
    - rewrite app_nth2 by lia. rewrite (nth_overflow (d_cols a)) by lia.
      assert (E : nth (t - length (d_cols a)) (repeat (repeat (RtoC 0) n) (L - length (d_cols a))) [] = repeat (RtoC 0) n).
      { assert (K2 : t - length (d_cols a) < L - length (d_cols a)) by lia. revert K2. generalize (t - length (d_cols a)) (L - length (d_cols a)). clear. intros p q. revert p.
        induction q as [|q IH]; intros [|p] K; try lia; [reflexivity|]. cbn. apply IH. lia. }
      rewrite E, repeat_length. split; [reflexivity|]. intros i. rewrite nth_zeros. destruct i; reflexivity. }
  assert (Wsel : forall old new i, length old = n -> (n <= i -> nth i new (RtoC 0) = RtoC 0) -> nth i (add_selected idx old new) (RtoC 0) = (nth i old (RtoC 0) + if existsb (Nat.eqb i) idx then nth i new (RtoC 0) else RtoC 0)%C).
  { intros old new i Ho Hw. unfold add_selected. destruct (lt_dec i n) as [K|K].
    - set (F := fun i0 => let z := nth i0 old (RtoC 0) in if existsb (Nat.eqb i0) idx then (z + nth i0 new (RtoC 0))%C else z).
      rewrite (nth_indep _ (RtoC 0) (F 0)) by (rewrite map_length, seq_length; lia). rewrite (map_nth F), seq_nth by lia. unfold F. cbn [Nat.add]. cbv zeta. destruct (existsb _ idx); [reflexivity|rewrite Cplus_0_r; reflexivity].
    - rewrite nth_overflow by (rewrite map_length, seq_length; lia). rewrite (nth_overflow old) by lia. rewrite Hw by lia. destruct (existsb _ idx); rewrite Cplus_0_l; reflexivity. }
  assert (Lf : length (firstn (length (d_cols b)) base) = length (d_cols b)) by (rewrite firstn_length; lia).
  assert (N1 : forall t, t < length (d_cols b) -> nth t (map2 (add_selected idx) (firstn (length (d_cols b)) base) (d_cols b)) [] = add_selected idx (nth t base []) (nth t (d_cols b) [])).
  { intros t Ht. rewrite nth_cols_map2 by lia. f_equal. rewrite <- (firstn_skipn (length (d_cols b)) base) at 2. rewrite app_nth1 by lia. reflexivity. }
  assert (Lm : length (map2 (add_selected idx) (firstn (length (d_cols b)) base) (d_cols b)) = length (d_cols b)) by (rewrite map2_length; lia).
  eexists. split; [reflexivity|]. cbn [d_ns d_cols]. split; [|split].
  - split; [reflexivity|]. cbn [d_cols]. apply Forall_forall. intros c Hc. apply in_app_iff in Hc as [Hc|Hc].
    + apply (In_nth _ _ []) in Hc as [t [Ht <-]]. rewrite Lm in Ht. rewrite N1 by exact Ht. unfold add_selected. rewrite map_length, seq_length. apply Cbase. lia.
    + assert (Hin : In c base) by (rewrite <- (firstn_skipn (length (d_cols b)) base); apply in_or_app; right; exact Hc).
      apply (In_nth _ _ []) in Hin as [t [Ht <-]]. apply Cbase. lia.
  - rewrite app_length, Lm, skipn_length. lia.
  - intros t i. cbn [selects]. unfold sample at 1. cbn [d_cols]. destruct (lt_dec t (length (d_cols b))) as [K|K].
    + rewrite app_nth1 by lia. rewrite N1 by exact K. destruct (Cbase t ltac:(lia)) as [C1 C2]. rewrite Wsel; [rewrite C2; reflexivity|exact C1|].
      intros Hle. apply nth_overflow. rewrite Forall_forall in Cb. rewrite (Cb (nth t (d_cols b) [])) by (apply nth_In; exact K). lia.
    + rewrite app_nth2 by lia. rewrite Lm. assert (Sb : sample b t i = RtoC 0) by (unfold sample; rewrite (nth_overflow (d_cols b)) by lia; destruct i; reflexivity).
      rewrite Sb. replace (if existsb (Nat.eqb i) idx then RtoC 0 else RtoC 0) with (RtoC 0) by (destruct (existsb _ idx); reflexivity). rewrite Cplus_0_r.
      assert (E : nth (t - length (d_cols b)) (skipn (length (d_cols b)) base) [] = nth t base []).
      { rewrite <- (firstn_skipn (length (d_cols b)) base) at 2. rewrite app_nth2 by lia. rewrite Lf. reflexivity. }
      rewrite E. destruct (lt_dec t L) as [K2|K2]; [apply Cbase; exact K2|]. rewrite (nth_overflow base) by lia. unfold sample. rewrite (nth_overflow (d_cols a)) by lia. reflexivity.
Qed.
Lemma superimpose_selected : forall n a b sel, 0 < n -> dense_of n a -> dense_of n b -> d_cols a <> [] -> (forall idx i, sel = Some idx -> In i idx -> i < n) ->
  exists r, superimpose a b sel = Ok r /\ dense_of n r /\ length (d_cols r) = Nat.max (length (d_cols a)) (length (d_cols b)) /\
    forall t i, sample r t i = (sample a t i + if selects sel i then sample b t i else RtoC 0)%C.
Proof.
  intros n a b [idx|] Hn Ha Hb Ne Hi; [|apply superimpose_sums; assumption]. apply (superimpose_fewer n n); try assumption; [lia|]. intros i Hin. exact (Hi idx i eq_refl Hin).
Qed.
Lemma mix_selected : forall n l d rest, 0 < n -> forall m pre,
  let c := current n (Some d :: pre ++ map (fun p => Some (fst p)) l) m in
  (m = Own 0 \/ exists x, m = Fresh x) -> dense_of n c -> d_cols c <> [] ->
  (forall p, In p l -> dense_of n (fst p) /\ forall idx i, snd p = Some idx -> In i idx -> i < n) ->
  rest = map (fun p : cdense * option (list nat) => Some (fst p)) l ->
  exists st, mix_from n (S (length pre)) (map snd l) (Some d :: pre ++ rest, m) = Ok st /\
    dense_of n (current n (fst st) (snd st)) /\
    (forall t i, sample (current n (fst st) (snd st)) t i = (sample c t i + total (fun p => if selects (snd p) i then sample (fst p) t i else RtoC 0) l)%C) /\
    ((exists x, m = Fresh x) -> fst st = Some d :: pre ++ rest) /\
    (m = Own 0 -> (forall p, In p l -> length (d_cols (fst p)) <= length (d_cols d)) -> snd st = Own 0 /\ tl (fst st) = pre ++ rest) /\
    (m = Own 0 -> forall p r, l = p :: r -> length (d_cols d) < length (d_cols (fst p)) -> fst st = Some d :: pre ++ rest).
Proof.
  intros n l. induction l as [|[e sel] l IH]; intros d rest Hn m pre c Hm Dc Nc Hl ->.
  - cbn [map mix_from total]. eexists. split; [reflexivity|]. cbn [fst snd]. cbn [map] in c. fold c. split; [exact Dc|]. split; [intros; rewrite Cplus_0_r; reflexivity|].
    split; [reflexivity|]. split; [intros -> _; split; reflexivity|intros _ p r E; discriminate].
  - cbn [map mix_from fst snd]. unfold mix_step at 1. cbn [nth_error]. rewrite nth_error_app2 by lia. rewrite Nat.sub_diag. cbn [nth_error map fst snd] in *. fold c.
    destruct (no_samples c) eqn:Ec; [apply (no_samples_spec n Hn c Dc) in Ec; contradiction|].
    destruct (Hl (e, sel) (or_introl eq_refl)) as [De Hi]. cbn [fst snd] in De, Hi.
    destruct (superimpose_selected n c e sel Hn Dc De Nc Hi) as [v [Ev [Dv [Lv Sv]]]]. rewrite Ev. cbn [bind].
    assert (Nv : d_cols v <> []). { intro E. rewrite E in Lv. cbn [length] in Lv. apply Nc. apply length_zero_iff_nil. lia. }
    assert (Hl' : forall p, In p l -> dense_of n (fst p) /\ forall idx i, snd p = Some idx -> In i idx -> i < n) by (intros p Hp; apply Hl; right; exact Hp).
    assert (Ea : forall x : list (option cdense), pre ++ Some e :: x = (pre ++ [Some e]) ++ x) by (intros x; rewrite <- app_assoc; reflexivity).
    assert (Lp : S (S (length pre)) = S (length (pre ++ [Some e]))) by (rewrite app_length; cbn; lia).
    assert (Fr : exists st, mix_from n (S (S (length pre))) (map snd l) (Some d :: pre ++ Some e :: map (fun p => Some (fst p)) l, Fresh v) = Ok st /\ dense_of n (current n (fst st) (snd st)) /\
      (forall t i, sample (current n (fst st) (snd st)) t i = (sample v t i + total (fun p => if selects (snd p) i then sample (fst p) t i else RtoC 0) l)%C) /\ fst st = Some d :: pre ++ Some e :: map (fun p => Some (fst p)) l).
    { rewrite Ea, Lp. destruct (IH d _ Hn (Fresh v) (pre ++ [Some e]) ltac:(right; eexists; reflexivity) Dv Nv Hl' eq_refl) as [st [E1 [E2 [E3 [E4 _]]]]].
      exists st. split; [exact E1|]. split; [exact E2|]. split; [exact E3|apply E4; eexists; reflexivity]. }
    assert (Tot : forall t i, (sample v t i + total (fun p => if selects (snd p) i then sample (fst p) t i else RtoC 0) l)%C =
      (sample c t i + total (fun p => if selects (snd p) i then sample (fst p) t i else RtoC 0) ((e, sel) :: l))%C) by (intros; cbn [total fst snd]; rewrite Sv; symmetry; apply Cplus_assoc).
    destruct Hm as [->|[x ->]].
    + assert (Ec0 : c = d) by reflexivity. destruct (fits c e) eqn:Ef.
      * unfold fits in Ef. apply andb_true_iff in Ef as [F1 F2]. apply Nat.leb_le in F1, F2. cbn [replace]. rewrite Ea, Lp.
        destruct (IH v _ Hn (Own 0) (pre ++ [Some e]) ltac:(left; reflexivity) Dv Nv Hl' eq_refl) as [st [E1 [E2 [E3 [E4 [E5 E6]]]]]].
        exists st. split; [exact E1|]. split; [exact E2|]. split; [intros t i; rewrite E3; cbn [current nth_error]; apply Tot|].
        split; [intros [x Hx]; discriminate|]. split; [|intros _ p r Hp Hlt; injection Hp as <- _; rewrite Ec0 in F2; cbn [fst] in Hlt; lia].
        intros _ Hall. destruct E5 as [G1 G2]; [reflexivity| |split; [exact G1|exact G2]]. intros p Hp. rewrite Lv. specialize (Hall p (or_intror Hp)). rewrite Ec0. lia.
      * destruct Fr as [st [E1 [E2 [E3 E4]]]]. exists st. split; [exact E1|]. split; [exact E2|]. split; [intros t i; rewrite E3; apply Tot|]. split; [intros _; exact E4|]. split; [|intros _ p r _ _; exact E4].
        intros _ Hall. exfalso. specialize (Hall (e, sel) (or_introl eq_refl)). cbn [fst] in Hall. unfold fits in Ef. rewrite Ec0 in *. destruct Dc as [Dc _], De as [De _]. rewrite Dc, De, Nat.leb_refl in Ef. cbn [andb] in Ef. apply Nat.leb_gt in Ef. lia.
    + destruct Fr as [st [E1 [E2 [E3 E4]]]]. exists st. split; [exact E1|]. split; [exact E2|]. split; [intros t i; rewrite E3; apply Tot|]. split; [intros _; exact E4|]. split; [intros Hx; discriminate|intros Hx; discriminate].
Qed.
