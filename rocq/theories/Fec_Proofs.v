From Coq Require Import List Arith Lia Bool Permutation Sorted.
From Verif Require Import Base BaseLemmas Fec_Model.
From Verif Require Import Fec_Spec.
Import ListNotations.

(** * Stateful block functions *)

Definition well_sized (m : member) : Prop := Fec_Spec.sized (m_K m) (m_L m) (m_enc m) (m_dec m).
Definition self_inverse (m : member) : Prop :=
  Fec_Spec.inverts (m_K m) (m_enc m) (m_dec m) (m_ehist m) (m_dhist m).

Lemma run_length f h bs : length (run f h bs) = length bs.
Proof. revert h. induction bs; simpl; auto. Qed.

Lemma run_nth f h bs i b : nth_error bs i = Some b ->
  nth_error (run f h bs) i = Some (f (h ++ firstn i bs) b).
Proof.
  revert h i. induction bs as [|x bs IH]; intros h [|i]; simpl; try discriminate.
  - intros H. inv H. now rewrite app_nil_r.
  - intros H. rewrite (IH (h ++ [x]) i H). now rewrite <- app_assoc.
Qed.

Lemma run_app f h b1 b2 : run f h (b1 ++ b2) = run f h b1 ++ run f (h ++ b1) b2.
Proof.
  revert h. induction b1; intros h; simpl.
  - now rewrite app_nil_r.
  - f_equal. rewrite IHb1. now rewrite <- app_assoc.
Qed.

Lemma run_eq f h bs outs : length outs = length bs ->
  (forall i b, nth_error bs i = Some b -> nth_error outs i = Some (f (h ++ firstn i bs) b)) ->
  outs = run f h bs.
Proof.
  intros Hl H. apply nth_error_ext. intros i.
  destruct (nth_error bs i) eqn:E.
  - rewrite (H _ _ E). symmetry. now apply run_nth.
  - apply nth_error_None in E.
    transitivity (@None bits); [|symmetry]; apply nth_error_None; [|rewrite run_length]; lia.
Qed.

Lemma inverts_run m bs : self_inverse m -> Forall (fun b => length b = m_K m) bs ->
  run (m_dec m) (m_dhist m) (run (m_enc m) (m_ehist m) bs) = bs.
Proof.
  intros H Hbs. symmetry. apply run_eq; [now rewrite run_length|].
  intros i c Hc.
  assert (Hi : i < length bs).
  { rewrite <- (run_length (m_enc m) (m_ehist m) bs). apply nth_error_Some. congruence. }
  destruct (nth_error bs i) as [b|] eqn:E; [|apply nth_error_None in E; lia].
  f_equal. symmetry. apply (H bs (run (m_enc m) (m_ehist m) bs) Hbs (run_length _ _ _)) with (i := i); auto.
  intros j b' Hb'. now apply run_nth.
Qed.

Lemma run_inverts m : (forall bs, Forall (fun b => length b = m_K m) bs ->
  run (m_dec m) (m_dhist m) (run (m_enc m) (m_ehist m) bs) = bs) -> self_inverse m.
Proof.
  intros H bs cs Hbs Hl He i b c Hb Hc.
  assert (cs = run (m_enc m) (m_ehist m) bs) by (apply run_eq; auto). subst cs.
  specialize (H bs Hbs).
  pose proof (run_nth (m_dec m) (m_dhist m) _ _ _ Hc) as R. rewrite H in R. congruence.
Qed.

Lemma run_sized f h bs a b : (forall h x, length x = a -> length (f h x) = b) ->
  Forall (fun x => length x = a) bs -> Forall (fun x => length x = b) (run f h bs).
Proof.
  intros Hf. revert h. induction bs; intros h H; simpl; constructor; inv H; auto.
Qed.

Lemma assign_all n bs : Forall (fun b => length b = n) bs -> mapM (assign_block n) bs = Ok bs.
Proof.
  intros H. transitivity (Ok (map (fun x => x) bs)).
  - apply mapM_ok_map. intros x Hx. unfold assign_block.
    rewrite (proj1 (Forall_forall _ _) H x Hx), Nat.eqb_refl. reflexivity.
  - now rewrite map_id.
Qed.

Lemma draw_length rng pos n : length (draw rng pos n) = n.
Proof. unfold draw. now rewrite map_length, seq_length. Qed.

(** * One encoding stage *)

Lemma encode_stage_inv pad rng m pos state m' pos' out :
  well_sized m -> encode_stage pad rng m pos state = Ok (m', pos', out) ->
  exists extra,
    let n := ceil_div (length state) (m_K m) in
    let bs := blocks_of n (m_K m) (state ++ extra) in
    length (state ++ extra) = n * m_K m /\
    m' = set_ehist m (m_ehist m ++ bs) /\
    out = concat (run (m_enc m) (m_ehist m) bs) /\
    length out = n * m_L m.
Proof.
  intros (HK & HL & He & Hd) H. unfold encode_stage in H.
  destruct (Nat.eqb_spec (m_K m) 0); [lia|].
  pose proof (proj1 (ceil_div_spec (length state) (m_K m) ltac:(lia))) as Hc.
  set (n0 := ceil_div (length state) (m_K m)) in *.
  assert (Hcase : exists p extra, length (state ++ extra) = n0 * m_K m /\
    (do code <- mapM (assign_block (m_L m)) (run (m_enc m) (m_ehist m) (blocks_of n0 (m_K m) (state ++ extra)));
     Ok (set_ehist m (m_ehist m ++ blocks_of n0 (m_K m) (state ++ extra)), p, concat code)) = Ok (m', pos', out)).
  { destruct (Nat.ltb_spec (length state) (n0 * m_K m)).
    - destruct pad; simpl in H; [|discriminate].
      eexists. exists (draw rng pos (n0 * m_K m - length state)).
      split; [rewrite app_length, draw_length; lia|exact H].
    - simpl in H. exists pos, []. rewrite app_nil_r. split; [lia|exact H]. }
  destruct Hcase as (p & extra & Hl & Hr). exists extra. cbv zeta.
  set (bs := blocks_of n0 (m_K m) (state ++ extra)) in *.
  assert (Hbs : Forall (fun b => length b = m_K m) bs) by (apply blocks_of_all_len; lia).
  pose proof (run_sized _ (m_ehist m) bs _ _ He Hbs) as Hr'.
  rewrite (assign_all _ _ Hr') in Hr. simpl in Hr. inv Hr.
  repeat split; auto.
  rewrite (length_concat_const _ _ Hr'), run_length. unfold bs. now rewrite length_blocks_of.
Qed.

(** Decoding with trailing garbage still yields the encoded data first. *)
Lemma decode_stage_prefix m n data extra cs rest :
  well_sized m -> self_inverse m ->
  length (data ++ extra) = n * m_K m ->
  cs = run (m_enc m) (m_ehist m) (blocks_of n (m_K m) (data ++ extra)) ->
  exists m' tail, decode_stage m (concat cs ++ rest) = Ok (m', data ++ tail).
Proof.
  intros (HK & HL & He & Hd) Hinv Hl Hcs. unfold decode_stage.
  destruct (Nat.eqb_spec (m_L m) 0); [lia|].
  set (bs := blocks_of n (m_K m) (data ++ extra)) in *.
  assert (Hbs : Forall (fun b => length b = m_K m) bs) by (apply blocks_of_all_len; lia).
  assert (Hcl : Forall (fun b => length b = m_L m) cs) by (subst cs; eapply run_sized; eauto).
  assert (Hlen : length (concat cs) = n * m_L m).
  { rewrite (length_concat_const _ _ Hcl). subst cs. rewrite run_length. unfold bs. now rewrite length_blocks_of. }
  set (nb := length (concat cs ++ rest) / m_L m).
  assert (Hnb : n <= nb).
  { unfold nb. rewrite app_length, Hlen.
    rewrite Nat.add_comm, Nat.div_add by lia. lia. }
  assert (Hcut : exists r2, firstn (nb * m_L m) (concat cs ++ rest) = concat cs ++ r2 /\ length r2 = (nb - n) * m_L m).
  { exists (firstn (nb * m_L m - length (concat cs)) rest). split.
    - rewrite firstn_app. f_equal. apply firstn_all2. rewrite Hlen. nia.
    - rewrite firstn_length, Hlen.
      pose proof (Nat.div_mod_eq (length (concat cs ++ rest)) (m_L m)) as D. fold nb in D.
      rewrite app_length, Hlen in D. nia. }
  destruct Hcut as (r2 & -> & Hr2).
  replace nb with (n + (nb - n)) by lia.
  rewrite blocks_of_app by exact Hlen.
  assert (Hncs : n = length cs) by (subst cs; rewrite run_length; unfold bs; now rewrite length_blocks_of).
  assert (Hbl : blocks_of n (m_L m) (concat cs) = cs) by (rewrite Hncs; apply blocks_of_concat; auto).
  rewrite Hbl.
  set (tl2 := blocks_of (nb - n) (m_L m) r2).
  assert (Htl : Forall (fun b => length b = m_L m) tl2) by (apply blocks_of_all_len; lia).
  rewrite run_app.
  replace (run (m_dec m) (m_dhist m) cs) with bs by (rewrite Hcs; symmetry; apply inverts_run; auto).
  assert (Hall : Forall (fun b => length b = m_K m) (bs ++ run (m_dec m) (m_dhist m ++ cs) tl2)).
  { apply Forall_app. split; auto. eapply run_sized; eauto. }
  rewrite (assign_all _ _ Hall). simpl.
  eexists. exists (extra ++ concat (run (m_dec m) (m_dhist m ++ cs) tl2)).
  f_equal. f_equal. rewrite concat_app. unfold bs at 1. rewrite concat_blocks_of.
  rewrite firstn_all2 by lia. now rewrite app_assoc.
Qed.

(** * The chain *)

Lemma encode_chain_same_shape pad rng l : forall pos st l' pos' out,
  encode_chain pad rng l pos st = Ok (l', pos', out) ->
  Forall2 (fun m m' => m_enabled m' = m_enabled m /\ m_K m' = m_K m /\ m_L m' = m_L m /\
                       m_enc m' = m_enc m /\ m_dec m' = m_dec m /\ m_dhist m' = m_dhist m) l l'.
Proof.
  induction l as [|m t IH]; intros pos st l' pos' out H; simpl in H.
  - inv H. constructor.
  - destruct (m_enabled m) eqn:En.
    + inv_bind H. destruct v as ((m1, p1), s1). inv_bind H. destruct v as ((t1, p2), o2). inv H.
      unfold encode_stage in E. destruct (m_K m =? 0); [discriminate|].
      inv_bind E. destruct v. inv_bind E. inv E. constructor; [|eauto]. simpl. auto 10.
    + inv_bind H. destruct v as ((t1, p2), o2). inv H. constructor; [auto 10|eauto].
Qed.

Lemma chain_prefix pad rng l : Forall well_sized l -> Forall self_inverse l ->
  forall pos data l' pos' code, encode_chain pad rng l pos data = Ok (l', pos', code) ->
  forall rest, exists l'' tail, decode_chain l (code ++ rest) = Ok (l'', data ++ tail).
Proof.
  induction l as [|m t IH]; intros Hs Hi pos data l' pos' code H rest; inv Hs; inv Hi; simpl in H |- *.
  - inv H. eauto.
  - destruct (m_enabled m) eqn:En.
    + inv_bind H. destruct v as ((m1, p1), s1). inv_bind H. destruct v as ((t1, p2), o2). inv H.
      destruct (encode_stage_inv _ _ _ _ _ _ _ _ H2 E) as (extra & Hl & Hm & Ho & _).
      destruct (IH H3 H5 _ _ _ _ _ E0 rest) as (l2 & tail & ->). simpl.
      subst s1.
      destruct (decode_stage_prefix m _ data extra _ tail H2 H4 Hl eq_refl) as (m2 & tl2 & ->).
      simpl. eauto.
    + inv_bind H. destruct v as ((t1, p2), o2). inv H.
      destruct (IH H3 H5 _ _ _ _ _ E rest) as (l2 & tail & ->). simpl. eauto.
Qed.

(** Encoding advances only encoder histories, which decoding does not look at. *)
Definition same_dec (m m' : member) : Prop :=
  m_enabled m' = m_enabled m /\ m_K m' = m_K m /\ m_L m' = m_L m /\
  m_enc m' = m_enc m /\ m_dec m' = m_dec m /\ m_dhist m' = m_dhist m.

Lemma decode_stage_same m m' st : same_dec m m' ->
  forall m1 out, decode_stage m st = Ok (m1, out) -> exists m1', decode_stage m' st = Ok (m1', out).
Proof.
  intros (A & B & C & D & E & F) m1 out H. unfold decode_stage in *. rewrite B, C, E, F.
  destruct (m_L m =? 0); [discriminate|]. inv_bind H. inv H. rewrite E0. simpl. eauto.
Qed.

Lemma decode_chain_same l l' : Forall2 same_dec l l' ->
  forall st l1 out, decode_chain l st = Ok (l1, out) -> exists l1', decode_chain l' st = Ok (l1', out).
Proof.
  induction 1 as [|m m' t t' Hm Ht IH]; intros st l1 out H; simpl in *.
  - inv H. eauto.
  - inv_bind H. destruct v as (t1, mid). destruct (IH _ _ _ E) as (t1' & ->). simpl.
    rewrite (proj1 Hm). destruct (m_enabled m).
    + inv_bind H. destruct v as (m1, o). inv H.
      destruct (decode_stage_same _ _ _ Hm _ _ E0) as (m1' & ->). simpl. eauto.
    + inv H. eauto.
Qed.

Lemma bit_block_loop_same l l' : Forall2 same_dec l l' ->
  forall a b, bit_block_loop l' a b = bit_block_loop l a b.
Proof.
  induction 1 as [|m m' t t' (A & B & C & _) Ht IH]; intros a b; simpl; auto.
  rewrite A, B, C. destruct (m_enabled m); auto.
  destruct (b =? 0); auto. destruct ((m_K m =? 0) || (m_L m =? 0)); auto.
Qed.

Lemma bit_block_size_same l l' : Forall2 same_dec l l' -> bit_block_size_of l' = bit_block_size_of l.
Proof.
  induction 1 as [|m m' t t' Hm Ht IH]; simpl; auto.
  destruct Hm as (A & B & C & _). rewrite A, B, C. destruct (m_enabled m); auto.
  now apply bit_block_loop_same.
Qed.

Definition last_L (l : list member) (d : nat) : nat :=
  match find m_enabled (rev l) with Some m => m_L m | None => d end.

Lemma last_L_cons m t d : last_L (m :: t) d = last_L t (if m_enabled m then m_L m else d).
Proof.
  unfold last_L. simpl.
  assert (F : forall l, find m_enabled (l ++ [m]) = match find m_enabled l with Some x => Some x | None => if m_enabled m then Some m else None end).
  { induction l; simpl; auto. destruct (m_enabled a); auto. }
  rewrite F. destruct (find m_enabled (rev t)); auto. now destruct (m_enabled m).
Qed.

Lemma last_L_same l l' : Forall2 same_dec l l' -> forall d, last_L l' d = last_L l d.
Proof.
  induction 1 as [|m m' t t' (A & B & C & _) Ht IH]; intros d; auto.
  rewrite !last_L_cons, A, C. apply IH.
Qed.

Lemma encode_inv mg data n mg' code : encode mg data n = Ok (mg', code) ->
  exists l' pos c0 padding, encode_chain (mg_pad mg) (mg_rng mg) (mg_encoders mg) (mg_pos mg) data = Ok (l', pos, c0) /\
   code = c0 ++ padding /\ mg_encoders mg' = l' /\ mg_pad mg' = mg_pad mg /\ mg_trunc mg' = mg_trunc mg /\
   (padding = [] \/ length padding < code_block_size mg) /\
   (forall k, n = Some (S k) -> length code = S k).
Proof.
  unfold encode. intros H. inv_bind H. destruct v as ((l', pos), c0).
  assert (D : exists p padding, code = c0 ++ padding /\ mg' = mkManager l' (mg_pad mg) (mg_trunc mg) (mg_rng mg) p /\
     (padding = [] \/ length padding < code_block_size mg) /\ (forall k, n = Some (S k) -> length code = S k)).
  { destruct n as [[|n]|].
    - inv H. exists pos, []. rewrite app_nil_r. repeat split; auto. intros; discriminate.
    - destruct (Nat.ltb_spec (S n) (length c0)); [discriminate|].
      destruct (Nat.ltb_spec (length c0) (S n)).
      + destruct (mg_pad mg) eqn:Ep; cbn [negb] in H; [|discriminate].
        destruct (Nat.leb_spec (code_block_size mg) (S n - length c0)); [discriminate|].
        inv H. eexists. exists (draw (mg_rng mg) pos (S n - length c0)).
        split; [reflexivity|]. split; [reflexivity|]. rewrite draw_length. split; [lia|].
        intros k Hk. inv Hk. rewrite app_length, draw_length. destruct (length c0); lia.
      + inv H. exists pos, []. rewrite app_nil_r. repeat split; auto. intros k Hk. inv Hk. lia.
    - inv H. exists pos, []. rewrite app_nil_r. repeat split; auto. intros; discriminate. }
  destruct D as (p & padding & -> & -> & Hp & Hk). exists l', pos, c0, padding. simpl. auto 10.
Qed.

Lemma same_dec_sym m m' : same_dec m m' -> same_dec m' m.
Proof. intros (A & B & C & D & E & F). repeat split; congruence. Qed.

(** C01, safety: whatever the block sizes, decoding never yields wrong bits. *)
Lemma encode_decode_safe mg data n mg1 code mg2 out :
  Forall well_sized (mg_encoders mg) -> Forall self_inverse (mg_encoders mg) ->
  encode mg data n = Ok (mg1, code) ->
  decode mg1 code (Some (length data)) = Ok (mg2, out) ->
  out = data.
Proof.
  intros Hs Hi He Hd.
  destruct (encode_inv _ _ _ _ _ He) as (l' & pos & c0 & padding & Hc & -> & Hl & _ & _ & _ & _).
  destruct (chain_prefix _ _ _ Hs Hi _ _ _ _ _ Hc padding) as (l2 & tail & Hdec).
  pose proof (encode_chain_same_shape _ _ _ _ _ _ _ _ Hc) as Hsame.
  destruct (decode_chain_same _ _ Hsame _ _ _ Hdec) as (l3 & Hdec').
  unfold decode in Hd. inv_bind Hd.
  destruct (code_block_size mg1 =? 0); [discriminate|].
  inv_bind Hd. rewrite Hl, Hdec' in Hd. simpl in Hd. inv Hd.
  assert (v0 = length data).
  { destruct (_ <? length data); [discriminate|]. destruct (negb _ && _); [discriminate|]. now inv E0. }
  subst v0. rewrite firstn_app, Nat.sub_diag, firstn_all. simpl. now rewrite app_nil_r.
Qed.

(** * Liveness: when the sizes divide, decoding succeeds. *)

Lemma loop_bound pad rng t : Forall well_sized t -> Forall (fun m => m_K m <= m_L m) t ->
  forall Lprev np block_size nb pos state l' pos' code,
    1 <= nb <= Lprev -> chain_divides (Some Lprev) t ->
    length state = np * Lprev ->
    encode_chain pad rng t pos state = Ok (l', pos', code) ->
    exists bbs q, bit_block_loop t block_size nb = Ok bbs /\
      length code = q * last_L t Lprev /\ 1 <= last_L t Lprev /\ np * block_size <= q * bbs.
Proof.
  induction t as [|m t IH]; intros Hs Hr Lprev np block_size nb pos state l' pos' code Hnb Hdiv Hlen H; inv Hs; inv Hr; cbn [bit_block_loop].
  - simpl in H. inv H. exists block_size, np. unfold last_L. simpl. split; [reflexivity|]. lia.
  - simpl in H. simpl in Hdiv. rewrite last_L_cons. destruct (m_enabled m) eqn:En.
    + destruct Hdiv as ((r & Hdk) & Hdiv).
      inv_bind H. destruct v as ((m1, p1), s1). inv_bind H. destruct v as ((t1, p2), o2). inv H.
      destruct (encode_stage_inv _ _ _ _ _ _ _ _ H2 E) as (extra & Hl & _ & _ & Hout).
      destruct H2 as (HK & HL & _). set (n := ceil_div (length state) (m_K m)) in *.
      destruct (Nat.eqb_spec nb 0); [lia|].
      destruct (Nat.eqb_spec (m_K m) 0); [lia|]. destruct (Nat.eqb_spec (m_L m) 0); [lia|]. cbn [orb].
      assert (Hrep : r <= m_K m / nb) by (apply Nat.div_le_lower_bound; nia).
      assert (Hrep1 : 1 <= r) by nia.
      assert (Hnb' : 1 <= nb * (m_K m / nb * m_L m / m_K m) <= m_L m).
      { pose proof (Nat.div_mod_eq (m_K m) nb). pose proof (Nat.mod_upper_bound (m_K m) nb).
        set (rep := m_K m / nb) in *. clearbody rep.
        pose proof (Nat.div_mod_eq (rep * m_L m) (m_K m)) as D. pose proof (Nat.mod_upper_bound (rep * m_L m) (m_K m)) as D2.
        assert (1 <= rep * m_L m / m_K m) by (apply Nat.div_le_lower_bound; nia).
        set (x := rep * m_L m / m_K m) in *. clearbody x. split; [nia|].
        assert (x * m_K m <= rep * m_L m) by lia.
        assert (rep * nb <= m_K m) by lia.
        assert (x * (rep * nb) <= rep * m_L m) by nia.
        assert (rep >= 1) by nia. nia. }
      destruct (IH H3 H5 (m_L m) n (block_size * (m_K m / nb)) _ _ _ _ _ _ Hnb' Hdiv Hout E0) as (bbs & q & Hb & Hq & Hq1 & Hle).
      rewrite Hb. exists bbs, q. repeat split; auto.
      rewrite app_length in Hl.
      assert (Hnp : np <= n * r).
      { apply (Nat.mul_le_mono_pos_r np (n * r) Lprev); [lia|].
        rewrite <- Nat.mul_assoc, <- Hdk. lia. }
      assert (n * r * block_size <= n * (m_K m / nb) * block_size).
      { apply Nat.mul_le_mono_r. now apply Nat.mul_le_mono_l. }
      assert (np * block_size <= n * r * block_size) by (now apply Nat.mul_le_mono_r).
      replace (n * (block_size * (m_K m / nb))) with (n * (m_K m / nb) * block_size) in Hle by ring.
      lia.
    + inv_bind H. destruct v as ((t1, p2), o2). inv H. eapply IH; eauto.
Qed.

Lemma size_bound pad rng l : Forall well_sized l -> Forall (fun m => m_K m <= m_L m) l ->
  chain_divides None l -> forall pos data l' pos' code,
  encode_chain pad rng l pos data = Ok (l', pos', code) ->
  exists bbs, bit_block_size_of l = Ok bbs /\ 1 <= last_L l 1 /\
     length data <= (length code / last_L l 1) * bbs.
Proof.
  induction l as [|m t IH]; intros Hs Hr Hdiv pos data l' pos' code H; inv Hs; inv Hr; cbn [bit_block_size_of].
  - simpl in H. inv H. exists 1. change (last_L [] 1) with 1. rewrite Nat.div_1_r. repeat split; lia.
  - simpl in H, Hdiv. rewrite last_L_cons. destruct (m_enabled m) eqn:En.
    + destruct Hdiv as (_ & Hdiv).
      inv_bind H. destruct v as ((m1, p1), s1). inv_bind H. destruct v as ((t1, p2), o2). inv H.
      destruct (encode_stage_inv _ _ _ _ _ _ _ _ H2 E) as (extra & Hl & _ & _ & Hout).
      destruct H2 as (HK & HL & _). set (n := ceil_div (length data) (m_K m)) in *.
      destruct (loop_bound _ _ t H3 H5 (m_L m) n (m_K m) (m_L m) _ _ _ _ _ ltac:(lia) Hdiv Hout E0)
        as (bbs & q & Hb & Hq & Hq1 & Hle).
      exists bbs. repeat split; auto. rewrite Hq, Nat.div_mul by lia. rewrite app_length in Hl. lia.
    + inv_bind H. destruct v as ((t1, p2), o2). inv H. eapply IH; eauto.
Qed.

Lemma encode_decode_live mg data n mg1 code :
  Forall well_sized (mg_encoders mg) -> Forall self_inverse (mg_encoders mg) ->
  Forall (fun m => m_K m <= m_L m) (mg_encoders mg) ->
  chain_divides None (mg_encoders mg) -> mg_trunc mg = true ->
  encode mg data n = Ok (mg1, code) ->
  exists mg2, decode mg1 code (Some (length data)) = Ok (mg2, data).
Proof.
  intros Hs Hi Hr Hdiv Ht He.
  destruct (encode_inv _ _ _ _ _ He) as (l' & pos & c0 & padding & Hc & -> & Hl & Hp & Htr & Hpad & _).
  destruct (chain_prefix _ _ _ Hs Hi _ _ _ _ _ Hc padding) as (l2 & tail & Hdec).
  pose proof (encode_chain_same_shape _ _ _ _ _ _ _ _ Hc) as Hsame.
  destruct (decode_chain_same _ _ Hsame _ _ _ Hdec) as (l3 & Hdec').
  destruct (size_bound _ _ _ Hs Hr Hdiv _ _ _ _ _ Hc) as (bbs & Hbbs & Hlast & Hle).
  unfold decode. unfold bit_block_size. rewrite Hl, (bit_block_size_same _ _ Hsame), Hbbs. simpl.
  assert (Hcbs : code_block_size mg1 = last_L (mg_encoders mg) 1).
  { change (code_block_size mg1) with (last_L (mg_encoders mg1) 1). rewrite Hl. now apply last_L_same. }
  rewrite Hcbs. destruct (Nat.eqb_spec (last_L (mg_encoders mg) 1) 0); [lia|].
  assert (length c0 / last_L (mg_encoders mg) 1 <= length (c0 ++ padding) / last_L (mg_encoders mg) 1).
  { apply Nat.div_le_mono; [lia|]. rewrite app_length. lia. }
  destruct (Nat.ltb_spec (length (c0 ++ padding) / last_L (mg_encoders mg) 1 * bbs) (length data)); [nia|].
  rewrite Htr, Ht. simpl. rewrite Hdec'. simpl. eexists. f_equal. f_equal.
  rewrite firstn_app, Nat.sub_diag, firstn_all. simpl. now rewrite app_nil_r.
Qed.
