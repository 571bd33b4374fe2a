(** Proofs about the actor's batch loop and the simulation set-up. *)
From Coq Require Import List Arith Bool Lia.
From Verif Require Import Base BaseLemmas Monte_Model Monte_Spec Monte_Proofs.
Import ListNotations.

(** ** Indices *)
Lemma index_of_lt x l i : index_of x l = Some i -> i < length l.
Proof.
  revert i; induction l as [|y l IH]; cbn; intros i H; [discriminate|].
  destruct (x =? y); [injection H as <-; lia|].
  destruct (index_of x l) as [j|]; cbn in H; [|discriminate].
  injection H as <-; specialize (IH j eq_refl); lia.
Qed.

Section Impacts.
  Context (stages : list nat).
  Let n := length stages.

  Lemma fold_impacts D : forall F0 L0 F L,
    fold_left (impact_step stages) D (F0, L0) = (F, L) -> L0 <= n - 1 ->
    F <= F0 /\ L0 <= L <= n - 1 /\
    (forall d, In d D -> match d_first d with
                         | None => F = 0
                         | Some s => forall i, index_of s stages = Some i -> F <= i end) /\
    (forall d, In d D -> match d_last d with
                         | None => L = n - 1
                         | Some s => forall i, index_of s stages = Some i -> i <= L end) /\
    (L = L0 \/ L = n - 1 \/ exists d s, In d D /\ d_last d = Some s /\ index_of s stages = Some L).
  Proof.
    induction D as [|d D IH]; intros F0 L0 F L H HL; cbn [fold_left] in H.
    - injection H as <- <-. repeat split; auto; try lia; intros d [].
    - destruct (impact_step stages (F0, L0) d) as [F1 L1] eqn:Hs.
      unfold impact_step in Hs; cbn [fst snd] in Hs; fold n in Hs.
      assert (HF1 : F1 <= F0 /\ match d_first d with
                         | None => F1 = 0
                         | Some s => forall i, index_of s stages = Some i -> F1 <= i end).
      { injection Hs as <- _; destruct (d_first d) as [s|]; [|lia].
        destruct (index_of s stages) as [i|] eqn:Ei; split; try lia; intros j Hj;
          [injection Hj as <-; lia | discriminate]. }
      assert (HL1 : L0 <= L1 <= n - 1 /\ match d_last d with
                         | None => L1 = n - 1
                         | Some s => forall i, index_of s stages = Some i -> i <= L1 end /\
                    (L1 = L0 \/ L1 = n - 1 \/ exists s, d_last d = Some s /\ index_of s stages = Some L1)).
      { injection Hs as _ <-; destruct (d_last d) as [s|]; [|lia].
        destruct (index_of s stages) as [i|] eqn:Ei.
        - pose proof (index_of_lt _ _ _ Ei) as Hi; fold n in Hi.
          split; [lia|]; split; [intros j Hj; injection Hj as <-; lia|].
          destruct (Nat.max_spec L0 i) as [[_ ->]|[_ ->]]; [right; right; eauto|auto].
        - split; [lia|]; split; [intros j Hj; discriminate|auto]. }
      destruct HF1 as [HF1 HF1'], HL1 as (HL1 & HL1' & HL1'').
      destruct (IH _ _ _ _ H ltac:(lia)) as (A1 & A2 & A3 & A4 & A5).
      split; [lia|]; split; [lia|]; split; [|split].
      + intros e [<-|He]; [|now apply A3].
        destruct (d_first d); [|lia]. intros i Hi; specialize (HF1' i Hi); lia.
      + intros e [<-|He]; [|now apply A4].
        destruct (d_last d); [|lia]. intros i Hi; specialize (HL1' i Hi); lia.
      + destruct A5 as [->|[->|(e & s & He & H1 & H2)]]; [|auto|].
        * destruct HL1'' as [->|[->|(s & H1 & H2)]]; auto.
          right; right; exists d, s; repeat split; auto; now left.
        * right; right; exists e, s; repeat split; auto; now right.
  Qed.
End Impacts.

(** ** Configuration updates *)
Lemma nth_upd d i (cfg : list nat) k : d < length cfg ->
  nth k (firstn d cfg ++ i :: skipn (S d) cfg) 0 = if k =? d then i else nth k cfg 0.
Proof.
  revert d k; induction cfg as [|x cfg IH]; intros [|d] [|k] H; cbn in *; try lia; auto.
  apply (IH d k); lia.
Qed.
Lemma length_upd d i (cfg : list nat) : d < length cfg ->
  length (firstn d cfg ++ i :: skipn (S d) cfg) = length cfg.
Proof. intros H; rewrite app_length, firstn_length; cbn [length]; rewrite skipn_length; lia. Qed.

Lemma list_nth_ext (a b : list nat) : length a = length b ->
  (forall k, k < length a -> nth k a 0 = nth k b 0) -> a = b.
Proof. intros H1 H2; apply nth_ext with (d := 0) (d' := 0); auto. Qed.

Lemma in_enumerate_gen {B} (l : list B) (x : nat) (y b : B) s :
  In (x, y) (combine (seq s (length l)) l) <-> s <= x < s + length l /\ nth (x - s) l b = y.
Proof.
  revert s; induction l as [|z l IH]; intros s; cbn [length seq combine].
  - split; [intros [] | cbn; lia].
  - cbn [In]; rewrite IH; split.
    + intros [H|[H1 H2]].
      * injection H as -> ->; split; [lia|]. replace (x - x) with 0 by lia; auto.
      * split; [lia|]. replace (x - s) with (S (x - S s)) by lia; auto.
    + intros [H1 H2]. destruct (Nat.eq_dec x s) as [->|Hne].
      * left; replace (s - s) with 0 in H2 by lia; cbn in H2; congruence.
      * right; split; [lia|]. replace (x - s) with (S (x - S s)) in H2 by lia; auto.
Qed.
Lemma in_enumerate (l : list nat) x y :
  In (x, y) (enumerate l) <-> x < length l /\ nth x l 0 = y.
Proof. unfold enumerate; rewrite (in_enumerate_gen l x y 0 0), Nat.sub_0_r; cbn; intuition lia. Qed.

Lemma in_changed old new x y :
  In (x, y) (changed_dims old new) <-> x < length new /\ nth x new 0 = y /\ nth x old 0 <> nth x new 0.
Proof.
  unfold changed_dims; rewrite filter_In, in_enumerate; cbn [fst snd].
  rewrite negb_true_iff, Nat.eqb_neq; intuition congruence.
Qed.

Lemma nth_firstn_lt k : forall (l : list nat) j, j < k -> nth j (firstn k l) 0 = nth j l 0.
Proof. induction k; intros [|x l] [|j] H; cbn; auto; try lia; apply IHk; lia. Qed.
Lemma nth_skipn' k : forall (l : list nat) j, nth j (skipn k l) 0 = nth (k + j) l 0.
Proof. induction k; intros [|x l] j; cbn; auto; destruct j; auto. Qed.

Section ActorProofs.
  Context {V A W : Type} (f : nat -> list nat -> A -> (nat -> V) -> W -> V).
  Context (stages : list nat) (args : nat -> list A) (draws : nat -> W) (grid : list dimension).
  Let n := length stages.
  Hypothesis Hcausal : causal f.
  Hypothesis Hargs : forall s, args s <> [].

  Notation exec_stage := (exec_stage V A W f draws).
  Notation execute_stages := (execute_stages V A W f args draws).
  Notation configure_all := (configure_all V grid).
  Notation run_section := (run_section V A W f stages args draws grid).
  Notation run_sections := (run_sections V A W f stages args draws grid).
  Notation run_batch := (run_batch V A W f stages args draws grid).

  (** Stage [s] is up to date in [o]. *)
  Definition fresh (cfg : list nat) (o : nat -> V) (s : nat) : Prop :=
    exists a w, In a (args s) /\ o s = f s cfg a o w.

  Definition post (cfg : list nat) (s k : nat) (o0 o : nat -> V) : Prop :=
    (forall j, (j < s \/ s + k <= j) -> o j = o0 j) /\
    (forall j, s <= j < s + k -> fresh cfg o j).

  Lemma execute_stages_post k : forall s st st' arts,
    execute_stages k s st = (st', arts) ->
    a_cfg st' = a_cfg st /\
    post (a_cfg st) s k (a_outs st) (a_outs st') /\
    Forall (post (a_cfg st) s k (a_outs st)) arts.
  Proof.
    induction k as [|k IH]; intros s st st' arts H; cbn [Monte_Model.execute_stages] in H.
    - injection H as <- <-.
      assert (P : post (a_cfg st) s 0 (a_outs st) (a_outs st)) by (split; [auto|intros j Hj; lia]).
      split; [auto|]; split; [auto|constructor; auto].
    - set (step := fun acc a => let '(st0, arts) := acc in
             let '(st1, arts1) := execute_stages k (S s) (exec_stage s st0 a) in (st1, arts ++ arts1)) in H.
      assert (Hstep : forall l st0 arts0 st1 arts1,
        (forall a, In a l -> In a (args s)) ->
        fold_left step l (st0, arts0) = (st1, arts1) ->
        a_cfg st0 = a_cfg st ->
        (forall j, (j < s \/ s + S k <= j) -> a_outs st0 j = a_outs st j) ->
        Forall (post (a_cfg st) s (S k) (a_outs st)) arts0 ->
        a_cfg st1 = a_cfg st /\
        (forall j, (j < s \/ s + S k <= j) -> a_outs st1 j = a_outs st j) /\
        Forall (post (a_cfg st) s (S k) (a_outs st)) arts1 /\
        (l <> [] \/ post (a_cfg st) s (S k) (a_outs st) (a_outs st0) ->
         post (a_cfg st) s (S k) (a_outs st) (a_outs st1))).
      { induction l as [|a l IHl]; intros st0 arts0 st1 arts1 Hl Hf Hc Ho Ha; cbn [fold_left] in Hf.
        - injection Hf as <- <-; split; [auto|]; split; [auto|]; split; [auto|]; intros [X|X]; [congruence|auto].
        - unfold step at 2 in Hf.
          destruct (execute_stages k (S s) (exec_stage s st0 a)) as [st2 arts2] eqn:He.
          destruct (IH _ _ _ _ He) as (E1 & E2 & E3).
          cbn [Monte_Model.exec_stage a_cfg a_outs] in E1, E2, E3; rewrite Hc in *.
          set (v := f s (a_cfg st) a (a_outs st0) (draws (a_draw st0))) in *.
          assert (Hlift : forall o, post (a_cfg st) (S s) k (set_out V (a_outs st0) s v) o ->
                                    post (a_cfg st) s (S k) (a_outs st) o).
          { intros o [P1 P2]; split.
            - intros j Hj; rewrite P1 by lia. unfold set_out.
              destruct (Nat.eqb_spec j s) as [->|]; [lia|]. now apply Ho.
            - intros j Hj; destruct (Nat.eq_dec j s) as [->|Hne]; [|apply P2; lia].
              exists a, (draws (a_draw st0)); split; [apply Hl; now left|].
              rewrite P1 by lia. unfold set_out at 1; rewrite Nat.eqb_refl; unfold v.
              apply Hcausal; intros j Hj'. rewrite P1 by lia; unfold set_out.
              destruct (Nat.eqb_spec j s) as [->|]; [lia|auto]. }
          assert (P2' := Hlift _ E2).
          destruct (IHl st2 (arts0 ++ arts2) st1 arts1) as (F1 & F2 & F3 & F4); auto.
          + intros b Hb; apply Hl; now right.
          + intros j Hj; apply P2'; auto.
          + apply Forall_app; split; auto. revert E3; apply Forall_impl; auto.
          + split; [auto|]; split; [auto|]; split; [auto|]; intros _; apply F4; now right. }
      destruct (Hstep (args s) st [] st' arts) as (F1 & F2 & F3 & F4); auto.
  Qed.

  Lemma length_execute_stages k : forall s st st' arts,
    execute_stages k s st = (st', arts) ->
    length arts = fold_right Nat.mul 1 (map (fun j => length (args j)) (seq s k)).
  Proof.
    induction k as [|k IH]; intros s st st' arts H; cbn [Monte_Model.execute_stages] in H.
    - now injection H as <- <-.
    - cbn [seq map fold_right].
      set (step := fun acc a => let '(st0, arts) := acc in
             let '(st1, arts1) := execute_stages k (S s) (exec_stage s st0 a) in (st1, arts ++ arts1)) in H.
      assert (Hstep : forall l st0 arts0 st1 arts1,
        fold_left step l (st0, arts0) = (st1, arts1) ->
        length arts1 = length arts0 + length l * fold_right Nat.mul 1 (map (fun j => length (args j)) (seq (S s) k))).
      { induction l as [|a l IHl]; intros st0 arts0 st1 arts1 Hf; cbn [fold_left] in Hf.
        - injection Hf as <- <-; cbn; lia.
        - unfold step at 2 in Hf.
          destruct (execute_stages k (S s) (exec_stage s st0 a)) as [st2 arts2] eqn:He.
          rewrite (IHl _ _ _ _ Hf), app_length, (IH _ _ _ _ He); cbn [length]; lia. }
      rewrite (Hstep _ _ _ _ _ H); auto.
  Qed.

  Lemma configure_all_spec l : forall st st' (new : list nat),
    configure_all l st = Ok st' ->
    length (a_cfg st) = length grid ->
    (forall d i, In (d, i) l -> nth d new 0 = i) ->
    a_outs st' = a_outs st /\ length (a_cfg st') = length grid /\
    forall k, nth k (a_cfg st') 0 = if existsb (fun p => fst p =? k) l then nth k new 0 else nth k (a_cfg st) 0.
  Proof.
    induction l as [|[d i] l IH]; intros st st' new H Hlen Hnew; cbn [Monte_Model.configure_all] in H.
    - injection H as <-; auto.
    - inv_bind H. unfold configure in E.
      destruct (nth_error grid d) as [dim|] eqn:Hd; [|discriminate].
      destruct (i <? d_points dim); [|discriminate].
      assert (Hv : v = mkA (a_outs st) (a_draw st) (firstn d (a_cfg st) ++ i :: skipn (S d) (a_cfg st)))
        by congruence.
      assert (Hlt : d < length (a_cfg st)).
      { rewrite Hlen; apply nth_error_Some; congruence. }
      destruct (IH v st' new H) as (H1 & H2 & H3).
      + rewrite Hv; cbn [a_cfg]; rewrite length_upd; auto.
      + intros d' i' Hi; apply Hnew; now right.
      + split; [rewrite H1, Hv; auto|]; split; auto.
        intros k; rewrite H3; cbn [existsb fst].
        destruct (existsb (fun p => fst p =? k) l); [rewrite orb_true_r; auto|rewrite orb_false_r].
        rewrite Hv; cbn [a_cfg]; rewrite nth_upd by auto.
        rewrite (Nat.eqb_sym d k). destruct (Nat.eqb_spec k d) as [->|]; auto.
        symmetry; apply Hnew; now left.
  Qed.

  Lemma configure_enumerate st st' new :
    configure_all (enumerate new) st = Ok st' ->
    length (a_cfg st) = length grid -> length new = length grid ->
    a_outs st' = a_outs st /\ a_cfg st' = new.
  Proof.
    intros H Hl Hn.
    destruct (configure_all_spec _ _ _ new H Hl) as (H1 & H2 & H3).
    { intros d i Hi; now apply in_enumerate in Hi as [_ Hi]. }
    split; auto; apply list_nth_ext; [lia|]; intros k Hk; rewrite H3.
    replace (existsb _ _) with true; auto; symmetry; apply existsb_exists.
    exists (k, nth k new 0); split; [apply in_enumerate; split; auto; lia | apply Nat.eqb_refl].
  Qed.

  Lemma configure_changed st st' old new :
    configure_all (changed_dims old new) st = Ok st' ->
    a_cfg st = old -> length old = length grid -> length new = length grid ->
    a_outs st' = a_outs st /\ a_cfg st' = new.
  Proof.
    intros H Hc Hl Hn.
    destruct (configure_all_spec _ _ _ new H ltac:(now rewrite Hc)) as (H1 & H2 & H3).
    { intros d i Hi; now apply in_changed in Hi as (_ & Hi & _). }
    split; auto; apply list_nth_ext; [lia|]; intros k Hk; rewrite H3.
    destruct (existsb _ _) eqn:He; auto. rewrite Hc.
    destruct (Nat.eq_dec (nth k old 0) (nth k new 0)) as [|Hne]; auto.
    enough (existsb (fun p => fst p =? k) (changed_dims old new) = true) by congruence.
    apply existsb_exists; exists (k, nth k new 0); split; [|apply Nat.eqb_refl].
    apply in_changed; repeat split; auto; lia.
  Qed.

  (** A stage that ignores every changed dimension does not notice the reconfiguration. *)
  Lemma ignores_changed s old new :
    length old = length new ->
    (forall d, d < length new -> nth d old 0 <> nth d new 0 -> ignores_dim f s d) ->
    forall a o w, f s old a o w = f s new a o w.
  Proof.
    intros Hlen Hig a o w.
    assert (Hmix : forall k, k <= length new -> f s (firstn k new ++ skipn k old) a o w = f s old a o w).
    { induction k as [|k IH]; intros Hk; [reflexivity|].
      rewrite <- IH by lia.
      destruct (Nat.eq_dec (nth k old 0) (nth k new 0)) as [Heq|Hne].
      - f_equal. apply list_nth_ext.
        + rewrite !app_length, !firstn_length, !skipn_length; lia.
        + intros j Hj. destruct (lt_dec j k) as [Hjk|Hjk].
          * rewrite !app_nth1 by (rewrite firstn_length; lia).
            rewrite !nth_firstn_lt by lia; auto.
          * destruct (Nat.eq_dec j k) as [->|Hjk'].
            -- rewrite app_nth1 by (rewrite firstn_length; lia).
               rewrite app_nth2 by (rewrite firstn_length; lia).
               rewrite nth_firstn_lt by lia. rewrite nth_skipn', firstn_length.
               replace (k + (k - Nat.min k (length new))) with k by lia; auto.
            -- rewrite !app_nth2 by (rewrite firstn_length; lia).
               rewrite !nth_skipn', !firstn_length; f_equal; lia.
      - apply (Hig k); [lia|auto| |].
        + rewrite !app_length, !firstn_length, !skipn_length; lia.
        + intros j Hjk. destruct (lt_dec j k) as [Hjk'|Hjk'].
          * rewrite !app_nth1 by (rewrite firstn_length; lia).
            rewrite !nth_firstn_lt by lia; auto.
          * rewrite !app_nth2 by (rewrite firstn_length; lia).
            rewrite !nth_skipn', !firstn_length; f_equal; lia. }
    rewrite <- (Hmix (length new)) by lia.
    rewrite firstn_all, <- Hlen, skipn_all, app_nil_r; auto.
  Qed.

  Hypothesis Htruth : forall d, d < length grid -> truthful f stages d (nth d grid (mkDim 0 0 None None)).

  Lemma impacts_range old new first last :
    length old = length grid -> length new = length grid ->
    impacts stages (map (fun p => nth (fst p) grid (mkDim 0 0 None None)) (changed_dims old new)) = (first, last) ->
    last <= n - 1 /\
    (changed_dims old new = [] -> first = 0 /\ last = n - 1) /\
    (changed_dims old new <> [] ->
     (forall s, s < first -> forall d, d < length new -> nth d old 0 <> nth d new 0 -> ignores_dim f s d) /\
     (forall s, last < s -> s < n ->
        ignores_upto f s last /\
        forall d, d < length new -> nth d old 0 <> nth d new 0 -> ignores_dim f s d)).
  Proof.
    intros Ho Hn H. unfold impacts in H; fold n in H.
    set (D := map _ (changed_dims old new)) in H.
    destruct (fold_left (impact_step stages) D (n, 0)) as [F L] eqn:Hf.
    destruct (fold_impacts stages D _ _ _ _ Hf ltac:(lia)) as (A1 & A2 & A3 & A4 & A5); fold n in A2, A4, A5.
    injection H as <- <-.
    split; [destruct (L =? 0); lia|]. split.
    { intros Hnil; unfold D in Hf; rewrite Hnil in Hf; cbn in Hf; injection Hf as <- <-.
      rewrite Nat.leb_refl; auto. }
    intros _.
    assert (HinD : forall d, d < length new -> nth d old 0 <> nth d new 0 ->
                   In (nth d grid (mkDim 0 0 None None)) D).
    { intros d Hd Hne; unfold D; apply in_map_iff; exists (d, nth d new 0); split; auto.
      apply in_changed; auto. }
    split.
    - intros s Hs d Hd Hne. destruct (n <=? F); [lia|].
      specialize (A3 _ (HinD d Hd Hne)). destruct (Htruth d ltac:(lia)) as [T1 _].
      destruct (d_first (nth d grid (mkDim 0 0 None None))) as [name|]; [|lia].
      destruct T1 as (i & Hi & Hig); apply Hig; specialize (A3 i Hi); lia.
    - intros s Hls Hsn. destruct (Nat.eqb_spec L 0) as [->|HL]; [lia|]. split.
      + destruct A5 as [->|[->|(d & name & Hd & Hl & Hi)]]; [lia|lia|].
        unfold D in Hd; apply in_map_iff in Hd as ([x y] & Hxy & Hin); cbn [fst] in Hxy.
        apply in_changed in Hin as (Hx & _ & _).
        destruct (Htruth x ltac:(lia)) as [_ T2]; rewrite Hxy, Hl in T2.
        destruct T2 as (i & Hi' & Hig). rewrite Hi in Hi'; injection Hi' as <-.
        now apply Hig.
      + intros d Hd Hne. specialize (A4 _ (HinD d Hd Hne)). destruct (Htruth d ltac:(lia)) as [_ T2].
        destruct (d_last (nth d grid (mkDim 0 0 None None))) as [name|]; [|lia].
        destruct T2 as (i & Hi & Hig); apply Hig; auto; specialize (A4 i Hi); lia.
  Qed.

  Lemma run_section_ok st recent section st' ss :
    run_section st recent section = Ok (st', ss) ->
    a_cfg st = recent -> length recent = length grid -> length section = length grid ->
    recent = section \/ consistent f n args recent (a_outs st) ->
    a_cfg st' = section /\ consistent f n args section (a_outs st') /\
    Forall (fun x => s_section x = section /\ s_cfg x = section /\ consistent f n args section (s_outs x)) ss.
  Proof.
    intros H Hc Hl1 Hl2 Hcase. unfold Monte_Model.run_section in H. inv_bind H.
    destruct (configure_changed _ _ _ _ E Hc Hl1 Hl2) as [Ho Hcfg].
    destruct (impacts stages _) as [first last] eqn:Himp.
    destruct (execute_stages (S last - first) first v) as [st2 arts] eqn:He.
    injection H as <- <-.
    destruct (execute_stages_post _ _ _ _ _ He) as (E1 & E2 & E3).
    rewrite Hcfg, Ho in *.
    destruct (impacts_range _ _ _ _ Hl1 Hl2 Himp) as (R0 & R1 & R2).
    assert (Hcons : forall o, post section first (S last - first) (a_outs st) o -> consistent f n args section o).
    { intros o [P1 P2] s Hs.
      destruct (Nat.le_gt_cases first s) as [Hfs|Hfs].
      - destruct (Nat.le_gt_cases s last) as [Hsl|Hsl].
        + apply P2; lia.
        + destruct (changed_dims recent section) as [|p l] eqn:Hch.
          { destruct (R1 eq_refl); lia. }
          destruct (R2 ltac:(discriminate)) as [_ R2']. destruct (R2' s Hsl Hs) as [Hup Hig].
          destruct Hcase as [->|Hcase].
          { exfalso. assert (X : In p (changed_dims section section)) by (rewrite Hch; now left).
            destruct p; apply in_changed in X as (_ & _ & X); congruence. }
          destruct (Hcase s Hs) as (a & w & Ha & Hos); exists a, w; split; auto.
          rewrite P1 by lia. rewrite Hos, (ignores_changed s recent section) by (auto; lia).
          apply Hup; intros k Hk; symmetry; apply P1; lia.
      - destruct (changed_dims recent section) as [|p l] eqn:Hch.
        { destruct (R1 eq_refl); lia. }
        destruct (R2 ltac:(discriminate)) as [R2' _].
        destruct Hcase as [->|Hcase].
        { exfalso. assert (X : In p (changed_dims section section)) by (rewrite Hch; now left).
          destruct p; apply in_changed in X as (_ & _ & X); congruence. }
        destruct (Hcase s Hs) as (a & w & Ha & Hos); exists a, w; split; auto.
        rewrite P1 by lia. rewrite Hos, (ignores_changed s recent section) by (auto; lia).
        apply Hcausal; intros k Hk; symmetry; apply P1; lia. }
    split; [auto|]; split; [auto|].
    apply Forall_forall; intros x Hx; apply in_map_iff in Hx as ([i o] & <- & Hin); cbn.
    repeat split; auto. apply Hcons. rewrite Forall_forall in E3; apply E3.
    unfold enumerate in Hin; eapply in_combine_r; eauto.
  Qed.

  Lemma run_sections_ok batch : forall st recent st' ss,
    run_sections st recent batch = Ok (st', ss) ->
    a_cfg st = recent -> length recent = length grid -> Forall (fun c => length c = length grid) batch ->
    (exists t, batch = recent :: t) \/ consistent f n args recent (a_outs st) ->
    Forall (fun x => In (s_section x) batch /\ s_cfg x = s_section x /\
                     consistent f n args (s_section x) (s_outs x)) ss.
  Proof.
    induction batch as [|c batch IH]; intros st recent st' ss H Hc Hl Hb Hcase;
      cbn [Monte_Model.run_sections] in H.
    - injection H as <- <-; constructor.
    - inv_bind H. destruct v as [st1 s1]. inv_bind H. destruct v as [st2 s2]. injection H as <- <-.
      apply Forall_cons_iff in Hb as [Hb1 Hb2].
      destruct (run_section_ok _ _ _ _ _ E Hc Hl Hb1) as (F1 & F2 & F3).
      { destruct Hcase as [[t Ht]|Hcase]; auto. injection Ht as -> _; auto. }
      apply Forall_app; split.
      + revert F3; apply Forall_impl; intros x (X1 & X2 & X3).
        rewrite X1; repeat split; auto; now left.
      + pose proof (IH _ _ _ _ E0 F1 Hb1 Hb2 (or_intror F2)) as G.
        revert G; apply Forall_impl; intros x (X1 & X2); split; auto; now right.
  Qed.

  Lemma run_batch_ok st batch st' ss :
    run_batch st batch = Ok (st', ss) ->
    length (a_cfg st) = length grid -> Forall (fun c => length c = length grid) batch ->
    Forall (fun x => In (s_section x) batch /\ s_cfg x = s_section x /\
                     consistent f n args (s_section x) (s_outs x)) ss.
  Proof.
    intros H Hl Hb. unfold Monte_Model.run_batch in H.
    destruct batch as [|c batch]; [discriminate|]. inv_bind H.
    assert (Hc : length c = length grid) by (now apply Forall_cons_iff in Hb as [Hb _]).
    destruct (configure_enumerate _ _ _ E Hl Hc) as [_ Hcfg].
    apply (run_sections_ok _ _ _ _ _ H Hcfg Hc Hb); left; eauto.
  Qed.
End ActorProofs.
