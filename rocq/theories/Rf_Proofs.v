(** Proofs about RF chain construction (C30). *)
From Coq Require Import List Arith Bool Lia.
From Verif Require Import Base BaseLemmas Rf_Model Rf_Spec.
Import ListNotations.

Lemma member_In x l : member x l = true <-> In x l.
Proof.
  unfold member. rewrite existsb_exists. split.
  - intros (y & H & E). apply Nat.eqb_eq in E; now subst.
  - intros H; exists x; split; auto. apply Nat.eqb_refl.
Qed.

Lemma In_remove_one x y l : NoDup l -> In y (remove_one x l) <-> In y l /\ y <> x.
Proof.
  induction l as [|z l IH]; intros H; [cbn; tauto|].
  inversion H as [|? ? Hz Hl]; subst. cbn [remove_one]. destruct (Nat.eqb_spec z x) as [->|Hne].
  - cbn. split; [intros Hy; split; [auto|intros ->; auto]|intros [[->|Hy] Hn]; [congruence|auto]].
  - cbn. rewrite IH by auto. intuition congruence.
Qed.
Lemma NoDup_remove_one x l : NoDup l -> NoDup (remove_one x l).
Proof.
  induction l as [|z l IH]; intros H; [auto|]. inversion H as [|? ? Hz Hl]; subst. cbn [remove_one].
  destruct (z =? x); [auto|]. constructor; auto. rewrite In_remove_one by auto. tauto.
Qed.

Lemma dict_set_fresh k v d : ~ In k (map fst d) -> dict_set k v d = d ++ [(k, v)].
Proof.
  induction d as [|[k' v'] d IH]; intros H; [reflexivity|]. cbn in *.
  destruct (Nat.eqb_spec k' k) as [->|]; [tauto|]. rewrite IH; auto.
Qed.
Lemma dict_set_keys k v d x : In x (map fst (dict_set k v d)) <-> x = k \/ In x (map fst d).
Proof.
  induction d as [|[k' v'] d IH]; cbn; [intuition|].
  destruct (Nat.eqb_spec k' k) as [->|]; cbn; [intuition|]. rewrite IH. intuition.
Qed.
Lemma dict_set_NoDup k v d : NoDup (map fst d) -> NoDup (map fst (dict_set k v d)).
Proof.
  induction d as [|[k' v'] d IH]; cbn; intros H; [constructor; [tauto|constructor]|].
  inversion H; subst. destruct (Nat.eqb_spec k' k) as [->|]; cbn; constructor; auto.
  rewrite dict_set_keys. intros [->|]; auto.
Qed.
Lemma dict_set_In k v d k' v' : NoDup (map fst d) ->
  In (k', v') (dict_set k v d) <-> (k' = k /\ v' = v) \/ (k' <> k /\ In (k', v') d).
Proof.
  induction d as [|[a b] d IH]; cbn; intros H.
  - split; [intros [E|[]]; injection E as <- <-; auto|intros [[-> ->]|[_ []]]; auto].
  - inversion H as [|? ? Hn Hd]; subst. destruct (Nat.eqb_spec a k) as [->|Hne]; cbn.
    + split.
      * intros [E|Hi]; [injection E as <- <-; auto|]. right. split; [|auto].
        intros ->. apply Hn. apply in_map_iff. exists (k, v'); auto.
      * intros [[-> ->]|[Hk [E|Hi]]]; [auto| |auto]. congruence.
    + rewrite IH by auto. split.
      * intros [E|[[-> ->]|[Hk Hi]]]; [injection E as <- <-|..]; auto.
      * intros [[-> ->]|[Hk [E|Hi]]]; auto.
Qed.

Section Connect.
Variable A : Type.
Notation chain := (chain A).
Implicit Types c : chain.

Lemma ports_ok_spec c o i op ip : ports_ok c o i op ip = true <->
  (forall p, In p op -> p < b_out (block_at c o)) /\
  (forall p, In p ip -> p < b_in (block_at c i) \/ b_in (block_at c i) = 0).
Proof.
  unfold ports_ok. rewrite andb_true_iff, orb_true_iff, !forallb_forall, Nat.eqb_eq. split.
  - intros [H1 H2]. split; [intros p Hp; apply Nat.ltb_lt; auto|].
    intros p Hp. destruct H2 as [H2|H2]; [auto|]. left. apply Nat.ltb_lt; auto.
  - intros [H1 H2]. split; [intros p Hp; apply Nat.ltb_lt; auto|].
    destruct (Nat.eq_dec (b_in (block_at c i)) 0) as [E|E]; [auto|].
    right. intros p Hp. apply Nat.ltb_lt. destruct (H2 p Hp); [auto|congruence].
Qed.

Lemma eqb_diff a b : Bool.eqb a b = false <-> a <> b.
Proof. destruct a, b; cbn; intuition congruence. Qed.

(** The accepted case. *)
Lemma connect_accepted c a b : acceptable c a b ->
  exists rfin rfout,
  let o := p_ref (out_side a b) in let i := p_ref (in_side a b) in
  let v := (p_idx (out_side a b), p_idx (in_side a b)) in
  let inc := upd (ch_inc c) i (dict_set o v (ch_inc c i)) in
  let outg := upd (ch_outg c) o (dict_set i v (ch_outg c o)) in
  let c2 := mkChain (ch_blocks c) inc outg (ch_dspin c) (ch_dspout c) (ch_rfin c) (ch_rfout c) in
  connect c a b = (mkChain (ch_blocks c) inc outg (ch_dspin c) (ch_dspout c) rfin rfout, None) /\
  rfin = (if (b_in (block_at c i) <=? connected_in c2 i) && member i (ch_rfin c)
          then remove_one i (ch_rfin c) else ch_rfin c) /\
  rfout = (if (b_out (block_at c o) <=? connected_out c2 o) && member o (ch_rfout c)
          then remove_one o (ch_rfout c) else ch_rfout c).
Proof.
  intros (Ha & Hb & Ht & Hl & Ho & Hi). eexists _, _. cbn zeta. split; [|split; reflexivity].
  assert (Hp : ports_ok c (p_ref (out_side a b)) (p_ref (in_side a b)) (p_idx (out_side a b)) (p_idx (in_side a b)) = true)
    by (now apply ports_ok_spec).
  unfold connect. destruct (Nat.leb_spec (length (ch_blocks c)) (p_ref a)); [lia|].
  destruct (Nat.leb_spec (length (ch_blocks c)) (p_ref b)); [lia|]. cbn [orb].
  apply eqb_diff in Ht. rewrite Ht, Hl, Nat.eqb_refl. cbn [negb].
  unfold in_side, out_side in *.
  destruct (p_isin a); unfold connect_to; rewrite Hp; unfold connect_from;
  unfold ports_ok, block_at in *; cbn [ch_blocks ch_inc ch_outg ch_dspin ch_dspout ch_rfin ch_rfout]; rewrite Hp; reflexivity.
Qed.

Lemma connect_rejected c a b : ~ acceptable c a b -> exists e, connect c a b = (c, Some e).
Proof.
  intros Hn. unfold connect.
  destruct (Nat.leb_spec (length (ch_blocks c)) (p_ref a)); [eexists; reflexivity|].
  destruct (Nat.leb_spec (length (ch_blocks c)) (p_ref b)); [eexists; reflexivity|]. cbn [orb].
  destruct (Bool.eqb (p_isin a) (p_isin b)) eqn:Ht; [eexists; reflexivity|]. apply eqb_diff in Ht.
  destruct (Nat.eqb_spec (length (p_idx a)) (length (p_idx b))); [|eexists; reflexivity]. cbn [negb].
  assert (Hp : ports_ok c (p_ref (out_side a b)) (p_ref (in_side a b)) (p_idx (out_side a b)) (p_idx (in_side a b)) = false).
  { destruct (ports_ok _ _ _ _ _) eqn:E; [|auto]. apply ports_ok_spec in E. elim Hn.
    unfold acceptable. intuition. }
  unfold in_side, out_side in Hp.
  destruct (p_isin a); unfold connect_to; rewrite Hp; eexists; reflexivity.
Qed.

Lemma acceptable_dec c a b : acceptable c a b \/ ~ acceptable c a b.
Proof.
  destruct (connect c a b) as [c' e] eqn:E. unfold acceptable.
  destruct (Nat.lt_ge_cases (p_ref a) (length (ch_blocks c))); [|right; intuition lia].
  destruct (Nat.lt_ge_cases (p_ref b) (length (ch_blocks c))); [|right; intuition lia].
  destruct (Bool.bool_dec (p_isin a) (p_isin b)); [right; tauto|].
  destruct (Nat.eq_dec (length (p_idx a)) (length (p_idx b))); [|right; tauto].
  destruct (ports_ok c (p_ref (out_side a b)) (p_ref (in_side a b)) (p_idx (out_side a b)) (p_idx (in_side a b))) eqn:Hp.
  - left. apply ports_ok_spec in Hp. intuition.
  - right. intros H'. assert (ports_ok c (p_ref (out_side a b)) (p_ref (in_side a b)) (p_idx (out_side a b)) (p_idx (in_side a b)) = true)
      by (apply ports_ok_spec; tauto). congruence.
Qed.

Lemma connect_result c a b : (acceptable c a b <-> snd (connect c a b) = None) /\
  (snd (connect c a b) <> None -> fst (connect c a b) = c).
Proof.
  destruct (acceptable_dec c a b) as [H|H].
  - destruct (connect_accepted c a b H) as (x & y & -> & _). cbn. tauto.
  - destruct (connect_rejected c a b H) as [e ->]. cbn. split; [split; [tauto|discriminate]|auto].
Qed.

(** Histories. *)
Lemma build_snoc (ops : list (op A)) o : build (ops ++ [o]) = apply_op (build ops) o.
Proof. unfold build. now rewrite fold_left_app. Qed.

Lemma keys_NoDup (ops : list (op A)) : forall r, NoDup (map fst (ch_inc (build ops) r)) /\ NoDup (map fst (ch_outg (build ops) r)).
Proof.
  induction ops as [|o ops IH] using rev_ind; intros r; [split; constructor|].
  rewrite build_snoc. destruct o as [b|a b]; cbn [apply_op]; [apply IH|].
  destruct (acceptable_dec (build ops) a b) as [H|H].
  - destruct (connect_accepted _ a b H) as (x & y & -> & _). cbn [fst ch_inc ch_outg]. unfold upd.
    destruct (r =? p_ref (in_side a b)), (r =? p_ref (out_side a b));
    split; try apply dict_set_NoDup; apply IH.
  - destruct (connect_rejected _ a b H) as [e ->]; cbn. apply IH.
Qed.

Lemma wired_connect (ops : list (op A)) a b w : acceptable (build ops) a b ->
  wired (fst (connect (build ops) a b)) w <->
  In w (wires_of a b) \/
  ((w_o w, w_i w) <> (p_ref (out_side a b), p_ref (in_side a b)) /\ wired (build ops) w).
Proof.
  intros H. destruct (connect_accepted _ a b H) as (x & y & -> & _). cbn [fst].
  set (o := p_ref (out_side a b)) in *. set (i := p_ref (in_side a b)) in *.
  assert (Hw : In w (wires_of a b) <-> w_o w = o /\ w_i w = i /\
            In (w_op w, w_ip w) (combine (p_idx (out_side a b)) (p_idx (in_side a b)))).
  { unfold wires_of. rewrite in_map_iff. split.
    - intros ([p q] & <- & Hin). cbn. auto.
    - intros (E1 & E2 & Hin). exists (w_op w, w_ip w). split; auto. destruct w; cbn in *; subst; reflexivity. }
  unfold wired; cbn [ch_inc]. unfold upd.
  destruct (Nat.eqb_spec (w_i w) i) as [Ei|Ei].
  - split.
    + intros (ops' & ips & Hin & Hc). apply dict_set_In in Hin; [|apply keys_NoDup].
      destruct Hin as [[Eo Ev]|[Hne Hin]].
      * injection Ev as -> ->. left. apply Hw. auto.
      * right. split; [intros E; injection E; auto|]. exists ops', ips. rewrite Ei; auto.
    + intros [Hin|[Hne (ops' & ips & Hin & Hc)]].
      * apply Hw in Hin as (Eo & _ & Hin). eexists _, _. split; [|exact Hin].
        apply dict_set_In; [apply keys_NoDup|]. left; auto.
      * exists ops', ips. split; auto. apply dict_set_In; [apply keys_NoDup|]. right. split; [|congruence].
        intros Eo; apply Hne; congruence.
  - split.
    + intros H'. right. split; [congruence|auto].
    + intros [Hin|[_ H']]; [apply Hw in Hin; tauto|auto].
Qed.

Lemma requested_app (l1 l2 : list (op A)) : forall c,
  requested c (l1 ++ l2) = requested c l1 ++ requested (fold_left apply_op l1 c) l2.
Proof. induction l1 as [|o l1 IH]; intros c; [reflexivity|]. cbn [app requested fold_left]. now rewrite IH, app_assoc. Qed.
Lemma joined_app (l1 l2 : list (op A)) : forall c,
  joined c (l1 ++ l2) = joined c l1 ++ joined (fold_left apply_op l1 c) l2.
Proof. induction l1 as [|o l1 IH]; intros c; [reflexivity|]. cbn [app joined fold_left]. now rewrite IH, app_assoc. Qed.

Lemma wired_joined (ops : list (op A)) : forall o i v, In (o, v) (ch_inc (build ops) i) -> In (o, i) (joined chain_new ops).
Proof.
  induction ops as [|p ops IH] using rev_ind; intros o i v Hin; [destruct Hin|].
  rewrite joined_app, in_app_iff. cbn [joined]. fold (build ops). rewrite app_nil_r.
  rewrite build_snoc in Hin. destruct p as [b|a b]; cbn [apply_op] in Hin.
  - left; eapply IH; eauto.
  - destruct (acceptable_dec (build ops) a b) as [H|H].
    + destruct (connect_accepted _ a b H) as (x & y & E & _). rewrite E in *. cbn [fst snd ch_inc] in *.
      unfold upd in Hin. destruct (Nat.eqb_spec i (p_ref (in_side a b))) as [->|]; [|left; eapply IH; eauto].
      apply dict_set_In in Hin; [|apply keys_NoDup]. destruct Hin as [[-> _]|[_ Hin]]; [right; left; auto|left; eapply IH; eauto].
    + destruct (connect_rejected _ a b H) as [e E]. rewrite E in Hin. left; eapply IH; eauto.
Qed.
Lemma outg_joined (ops : list (op A)) : forall o i v, In (i, v) (ch_outg (build ops) o) -> In (o, i) (joined chain_new ops).
Proof.
  induction ops as [|p ops IH] using rev_ind; intros o i v Hin; [destruct Hin|].
  rewrite joined_app, in_app_iff. cbn [joined]. fold (build ops). rewrite app_nil_r.
  rewrite build_snoc in Hin. destruct p as [b|a b]; cbn [apply_op] in Hin.
  - left; eapply IH; eauto.
  - destruct (acceptable_dec (build ops) a b) as [H|H].
    + destruct (connect_accepted _ a b H) as (x & y & E & _). rewrite E in *. cbn [fst snd ch_outg] in *.
      unfold upd in Hin. destruct (Nat.eqb_spec o (p_ref (out_side a b))) as [->|]; [|left; eapply IH; eauto].
      apply dict_set_In in Hin; [|apply keys_NoDup]. destruct Hin as [[-> _]|[_ Hin]]; [right; left; auto|left; eapply IH; eauto].
    + destruct (connect_rejected _ a b H) as [e E]. rewrite E in Hin. left; eapply IH; eauto.
Qed.

Lemma wired_requested (ops : list (op A)) : NoDup (joined chain_new ops) ->
  forall w, wired (build ops) w <-> In w (requested chain_new ops).
Proof.
  induction ops as [|p ops IH] using rev_ind; intros Hnd w.
  - cbn. split; [intros (? & ? & [] & _)|tauto].
  - rewrite joined_app in Hnd. rewrite requested_app, in_app_iff, build_snoc.
    cbn [joined requested] in *. fold (build ops) in *. rewrite app_nil_r in *.
    assert (Hnd1 : NoDup (joined chain_new ops)).
    { clear - Hnd. induction (joined chain_new ops) as [|x l IHl]; [constructor|]. cbn in Hnd.
      inversion Hnd; subst. constructor; [|auto]. rewrite in_app_iff in *. tauto. }
    specialize (IH Hnd1 w). destruct p as [b|a b]; cbn [apply_op].
    + rewrite <- IH. cbn. unfold wired. cbn. tauto.
    + destruct (connect_result (build ops) a b) as [R1 R2].
      destruct (snd (connect (build ops) a b)) as [e|] eqn:E.
      * rewrite R2 by congruence. rewrite IH. cbn; tauto.
      * rewrite wired_connect by tauto. rewrite IH. split; [tauto|].
        intros [H|H]; [right|auto]. split; [|auto].
        intros Ep. assert (Hj : In (w_o w, w_i w) (joined chain_new ops)).
        { apply IH in H. destruct H as (o' & i' & Hin & _). eapply wired_joined; eauto. }
        rewrite Ep in Hj. apply in_split in Hj as (l1 & l2 & Ej). rewrite Ej in Hnd.
        rewrite <- app_assoc in Hnd. cbn [app] in Hnd. apply NoDup_remove_2 in Hnd. apply Hnd.
        rewrite !in_app_iff. right; right. left; reflexivity.
Qed.

(** Which blocks are fed from / read by the outside. *)
Definition lists_inv (c : chain) : Prop :=
  NoDup (ch_rfin c) /\ NoDup (ch_rfout c) /\ NoDup (ch_dspin c) /\ NoDup (ch_dspout c) /\
  (forall r, In r (ch_dspin c) <-> r < length (ch_blocks c) /\ 0 < b_in (block_at c r) /\ b_dspin (block_at c r) = true) /\
  (forall r, In r (ch_dspout c) <-> r < length (ch_blocks c) /\ 0 < b_out (block_at c r) /\ b_dspout (block_at c r) = true) /\
  (forall r, length (ch_blocks c) <= r -> ch_inc c r = [] /\ ch_outg c r = []) /\
  (forall r, In r (ch_rfin c) <-> r < length (ch_blocks c) /\ b_dspin (block_at c r) = false /\ connected_in c r < b_in (block_at c r)) /\
  (forall r, In r (ch_rfout c) <-> r < length (ch_blocks c) /\ b_dspout (block_at c r) = false /\ connected_out c r < b_out (block_at c r)).

Lemma block_at_snoc c b r : block_at (add_block c b) r = if r =? length (ch_blocks c) then b else block_at c r.
Proof.
  unfold block_at, add_block; cbn [ch_blocks]. destruct (Nat.eqb_spec r (length (ch_blocks c))) as [->|Hne].
  - rewrite app_nth2 by lia. now rewrite Nat.sub_diag.
  - destruct (Nat.lt_ge_cases r (length (ch_blocks c))); [now rewrite app_nth1|].
    rewrite !nth_overflow; auto. rewrite app_length; cbn; lia.
Qed.

Lemma NoDup_snoc (x : nat) l : NoDup l -> ~ In x l -> NoDup (l ++ [x]).
Proof. intros H1 H2. apply NoDup_rev in H1. rewrite <- (rev_involutive (l ++ [x])). apply NoDup_rev. rewrite rev_app_distr. cbn. constructor; auto. rewrite <- in_rev; auto. Qed.

Lemma lists_add c b : lists_inv c -> lists_inv (add_block c b).
Proof.
  intros (N1 & N2 & N3 & N4 & D1 & D2 & Hout & R1 & R2).
  assert (Hlen : length (ch_blocks (add_block c b)) = S (length (ch_blocks c))) by (cbn; rewrite app_length; cbn; lia).
  assert (Hnew : forall l, (forall r, In r l -> r < length (ch_blocks c)) -> ~ In (length (ch_blocks c)) l)
    by (intros l Hl Hi; apply Hl in Hi; lia).
  assert (F1 : ~ In (length (ch_blocks c)) (ch_rfin c)) by (apply Hnew; intros r Hr; apply R1 in Hr; tauto).
  assert (F2 : ~ In (length (ch_blocks c)) (ch_rfout c)) by (apply Hnew; intros r Hr; apply R2 in Hr; tauto).
  assert (F3 : ~ In (length (ch_blocks c)) (ch_dspin c)) by (apply Hnew; intros r Hr; apply D1 in Hr; tauto).
  assert (F4 : ~ In (length (ch_blocks c)) (ch_dspout c)) by (apply Hnew; intros r Hr; apply D2 in Hr; tauto).
  assert (Hgen : forall (l : list nat) (cond : bool) (P : nat -> Prop) (Q : Prop),
     ~ In (length (ch_blocks c)) l -> (cond = true <-> Q) -> (forall r, In r l <-> r < length (ch_blocks c) /\ P r) ->
     forall r, In r (if cond then l ++ [length (ch_blocks c)] else l) <->
       r < S (length (ch_blocks c)) /\ (if r =? length (ch_blocks c) then Q else P r)).
  { intros l cond P Q Hn Hc Hl r. destruct (Nat.eqb_spec r (length (ch_blocks c))) as [->|Hne].
    - destruct cond.
      + rewrite in_app_iff; cbn. split; [intros _; split; [lia|apply Hc; auto]|auto].
      + split; [tauto|]. intros [_ HQ]. apply Hc in HQ. discriminate.
    - specialize (Hl r).
      destruct cond; [rewrite in_app_iff; cbn|]; rewrite Hl; intuition lia. }
  assert (Hin0 : connected_in (add_block c b) (length (ch_blocks c)) = 0)
    by (unfold connected_in; cbn [add_block ch_inc]; destruct (Hout (length (ch_blocks c)) ltac:(lia)) as [-> _]; reflexivity).
  assert (Hout0 : connected_out (add_block c b) (length (ch_blocks c)) = 0)
    by (unfold connected_out; cbn [add_block ch_outg]; destruct (Hout (length (ch_blocks c)) ltac:(lia)) as [_ ->]; reflexivity).
  assert (B1 : forall x y, x && negb y = true <-> x = true /\ y = false) by (intros [] []; cbn; intuition congruence).
  assert (B2 : forall x y, x && y = true <-> x = true /\ y = true) by (intros [] []; cbn; intuition congruence).
  unfold lists_inv. rewrite Hlen.
  split. { cbn. destruct (_ && _); auto using NoDup_snoc. }
  split. { cbn. destruct (_ && _); auto using NoDup_snoc. }
  split. { cbn. destruct (_ && _); auto using NoDup_snoc. }
  split. { cbn. destruct (_ && _); auto using NoDup_snoc. }
  split. { intros r. cbn [add_block ch_dspin]. rewrite (Hgen _ _ _ _ F3 (B2 _ _) D1 r). rewrite block_at_snoc.
    destruct (r =? length (ch_blocks c)); [rewrite Nat.ltb_lt; tauto|tauto]. }
  split. { intros r. cbn [add_block ch_dspout]. rewrite (Hgen _ _ _ _ F4 (B2 _ _) D2 r). rewrite block_at_snoc.
    destruct (r =? length (ch_blocks c)); [rewrite Nat.ltb_lt; tauto|tauto]. }
  split. { intros r Hr. cbn [add_block ch_inc ch_outg]. apply Hout; lia. }
  split. { intros r. cbn [add_block ch_rfin]. rewrite (Hgen _ _ _ _ F1 (B1 _ _) R1 r). rewrite block_at_snoc.
    destruct (Nat.eqb_spec r (length (ch_blocks c))) as [->|]; [rewrite Nat.ltb_lt, Hin0; tauto|reflexivity]. }
  { intros r. cbn [add_block ch_rfout]. rewrite (Hgen _ _ _ _ F2 (B1 _ _) R2 r). rewrite block_at_snoc.
    destruct (Nat.eqb_spec r (length (ch_blocks c))) as [->|]; [rewrite Nat.ltb_lt, Hout0; tauto|reflexivity]. }
Qed.

Lemma sum_snoc (l : list conn) e : list_sum (map (fun e => length (fst (snd e))) (l ++ [e])) =
  list_sum (map (fun e : conn => length (fst (snd e))) l) + length (fst (snd e)).
Proof. rewrite map_app, list_sum_app. cbn [map]. unfold list_sum at 2; cbn [fold_right]. rewrite Nat.add_0_r. reflexivity. Qed.

Lemma lists_inv_build (ops : list (op A)) : NoDup (joined chain_new ops) -> lists_inv (build ops).
Proof.
  induction ops as [|p ops IH] using rev_ind; intros Hnd.
  { unfold lists_inv. cbn. do 4 (split; [constructor|]). split; [|split; [|split; [|split]]]; intros r; try (split; [tauto|lia]). auto. }
  rewrite joined_app in Hnd. cbn [joined] in Hnd. fold (build ops) in Hnd. rewrite app_nil_r in Hnd.
  assert (Hnd1 : NoDup (joined chain_new ops)).
  { clear - Hnd. induction (joined chain_new ops) as [|x l IHl]; [constructor|]. cbn in Hnd.
    inversion Hnd; subst. constructor; [|auto]. rewrite in_app_iff in *. tauto. }
  specialize (IH Hnd1). rewrite build_snoc. destruct p as [b|a b]; cbn [apply_op]; [now apply lists_add|].
  destruct (acceptable_dec (build ops) a b) as [H|H].
  2:{ destruct (connect_rejected _ a b H) as [e ->]. auto. }
  destruct (connect_accepted _ a b H) as (rfin & rfout & E & Erfin & Erfout). rewrite E in *. cbn [fst snd] in *.
  set (o := p_ref (out_side a b)) in *. set (i := p_ref (in_side a b)) in *.
  assert (Hfresh : ~ In (o, i) (joined chain_new ops)).
  { intros Hj. apply in_split in Hj as (l1 & l2 & Ej). rewrite Ej in Hnd.
    rewrite <- app_assoc in Hnd. cbn [app] in Hnd. apply NoDup_remove_2 in Hnd. apply Hnd.
    rewrite !in_app_iff. right; right. left; reflexivity. }
  destruct H as (Hla & Hlb & _ & Hlen & _ & _).
  assert (Hoi : o < length (ch_blocks (build ops)) /\ i < length (ch_blocks (build ops))).
  { subst o i. unfold out_side, in_side. destruct (p_isin a); auto. }
  destruct IH as (N1 & N2 & N3 & N4 & D1 & D2 & Hout & R1 & R2).
  rewrite (dict_set_fresh o) in * by (intros Hk; apply in_map_iff in Hk as ([k v] & Ek & Hk); cbn in Ek; subst k; apply wired_joined in Hk; tauto).
  rewrite (dict_set_fresh i) in * by (intros Hk; apply in_map_iff in Hk as ([k v] & Ek & Hk); cbn in Ek; subst k; apply outg_joined in Hk; tauto).
  set (v := (p_idx (out_side a b), p_idx (in_side a b))) in *.
  set (inc := upd (ch_inc (build ops)) i _) in *. set (outg := upd (ch_outg (build ops)) o _) in *.
  assert (Cin : forall x y, forall r, connected_in (mkChain (ch_blocks (build ops)) inc outg (ch_dspin (build ops)) (ch_dspout (build ops)) x y) r =
       if r =? i then connected_in (build ops) i + length (fst v) else connected_in (build ops) r).
  { intros x y r. unfold connected_in; cbn [ch_inc]. unfold inc, upd. destruct (Nat.eqb_spec r i) as [->|]; [|reflexivity]. apply sum_snoc. }
  assert (Cout : forall x y, forall r, connected_out (mkChain (ch_blocks (build ops)) inc outg (ch_dspin (build ops)) (ch_dspout (build ops)) x y) r =
       if r =? o then connected_out (build ops) o + length (fst v) else connected_out (build ops) r).
  { intros x y r. unfold connected_out; cbn [ch_outg]. unfold outg, upd. destruct (Nat.eqb_spec r o) as [->|]; [|reflexivity]. apply sum_snoc. }
  rewrite Cin, Nat.eqb_refl in Erfin. rewrite Cout, Nat.eqb_refl in Erfout.
  unfold lists_inv. cbn [ch_rfin ch_rfout ch_dspin ch_dspout ch_blocks ch_inc ch_outg].
  split. { rewrite Erfin. match goal with |- context[if ?x then _ else _] => destruct x end; auto using NoDup_remove_one. }
  split. { rewrite Erfout. match goal with |- context[if ?x then _ else _] => destruct x end; auto using NoDup_remove_one. }
  split; [auto|]. split; [auto|]. split; [exact D1|]. split; [exact D2|].
  split. { intros r Hr. unfold inc, outg, upd. destruct (Nat.eqb_spec r i); [lia|]. destruct (Nat.eqb_spec r o); [lia|]. apply Hout; auto. }
  split.
  - intros r. rewrite Cin. change (block_at (mkChain (ch_blocks (build ops)) inc outg (ch_dspin (build ops)) (ch_dspout (build ops)) rfin rfout) r) with (block_at (build ops) r).
    rewrite Erfin. specialize (R1 r) as R1r. pose proof (R1 i) as R1i.
    destruct (Nat.leb_spec (b_in (block_at (build ops) i)) (connected_in (build ops) i + length (fst v))) as [Hle|Hgt]; cbn [andb].
    + destruct (member i (ch_rfin (build ops))) eqn:Em.
      * rewrite In_remove_one by auto. destruct (Nat.eqb_spec r i) as [->|]; [|tauto]. split; [tauto|lia].
      * assert (~ In i (ch_rfin (build ops))) by (rewrite <- member_In; congruence).
        destruct (Nat.eqb_spec r i) as [->|]; [|tauto]. split; [tauto|lia].
    + destruct (Nat.eqb_spec r i) as [->|]; [|tauto]. rewrite R1r. split; [intros (H1 & H2 & H3)|intros (H1 & H2 & H3)]; (split; [auto|split; [auto|lia]]).
  - intros r. rewrite Cout. change (block_at (mkChain (ch_blocks (build ops)) inc outg (ch_dspin (build ops)) (ch_dspout (build ops)) rfin rfout) r) with (block_at (build ops) r).
    rewrite Erfout. specialize (R2 r) as R2r. pose proof (R2 o) as R2o.
    destruct (Nat.leb_spec (b_out (block_at (build ops) o)) (connected_out (build ops) o + length (fst v))) as [Hle|Hgt]; cbn [andb].
    + destruct (member o (ch_rfout (build ops))) eqn:Em.
      * rewrite In_remove_one by auto. destruct (Nat.eqb_spec r o) as [->|]; [|tauto]. split; [tauto|lia].
      * assert (~ In o (ch_rfout (build ops))) by (rewrite <- member_In; congruence).
        destruct (Nat.eqb_spec r o) as [->|]; [|tauto]. split; [tauto|lia].
    + destruct (Nat.eqb_spec r o) as [->|]; [|tauto]. rewrite R2r. split; [intros (H1 & H2 & H3)|intros (H1 & H2 & H3)]; (split; [auto|split; [auto|lia]]).
Qed.
End Connect.
