(** Proofs about signal propagation through RF chains (C31). *)
From Coq Require Import List Arith Bool Lia.
From Verif Require Import Base BaseLemmas Rf_Model Rf_Spec Rf_Proofs.
Import ListNotations.

Lemma remove_one_filter x l : NoDup l -> remove_one x l = filter (fun y => negb (y =? x)) l.
Proof.
  induction l as [|y l IH]; intros H; [reflexivity|]. inversion H as [|? ? Hy Hl]; subst. cbn [remove_one filter].
  destruct (Nat.eqb_spec y x) as [->|]; cbn [negb]; [|now rewrite IH].
  clear - Hy. induction l as [|z l IH]; [reflexivity|]. cbn in *. destruct (Nat.eqb_spec z x); [tauto|]. cbn.
  f_equal. apply IH. tauto.
Qed.
Lemma filter_filter {X} (f g : X -> bool) l : filter f (filter g l) = filter (fun x => g x && f x) l.
Proof. induction l as [|x l IH]; [reflexivity|]. cbn. destruct (g x); cbn; [destruct (f x)|]; now rewrite IH. Qed.

Lemma remove_all_filter ps : forall l, NoDup l -> NoDup ps -> incl ps l ->
  remove_all ps l = Ok (filter (fun x => negb (member x ps)) l).
Proof.
  induction ps as [|p ps IH]; intros l Hl Hp Hi; cbn [remove_all].
  - f_equal. symmetry. clear. induction l as [|x l IH]; [reflexivity|]. cbn. now f_equal.
  - inversion Hp as [|? ? Hpn Hps]; subst.
    assert (Hm : member p l = true) by (apply member_In, Hi; left; auto). rewrite Hm.
    rewrite IH; auto using NoDup_remove_one.
    + rewrite remove_one_filter, filter_filter by auto. f_equal. apply filter_ext. intros x.
      unfold member; cbn [existsb]. now rewrite negb_orb.
    + intros x Hx. apply In_remove_one; auto. split; [apply Hi; right; auto|]. intros ->; auto.
Qed.

(** Writing rows. *)
Section Rows.
Variable A : Type.
Notation stream := (list A).
Notation signal := (list (list A)).

Lemma nth_set_row (rows : signal) i row p ns : i < length rows -> Forall (fun x => length x = ns) rows -> length row = ns ->
  nth_error (set_row A rows i row) p = if p =? i then Some row else nth_error rows p.
Proof.
  intros Hi Hr Hl. unfold set_row.
  destruct (nth_error rows i) as [old|] eqn:E; [|apply nth_error_None in E; lia].
  assert (Hold : length old = ns) by (rewrite Forall_forall in Hr; apply Hr; eapply nth_error_In; eauto).
  assert (Hs : skipn i rows = old :: skipn (S i) rows).
  { clear - E. revert i E; induction rows as [|x rows IH]; intros [|i] E; cbn in *; try discriminate; [congruence|]. now apply IH. }
  rewrite Hs. cbn [firstn map app]. rewrite (skipn_all2 old) by lia. rewrite app_nil_r.
  destruct (Nat.eqb_spec p i) as [->|Hne].
  - rewrite nth_error_app2 by (rewrite firstn_length; lia). rewrite firstn_length_le by lia. now rewrite Nat.sub_diag.
  - destruct (Nat.lt_ge_cases p i).
    + rewrite nth_error_app1 by (rewrite firstn_length; lia).
      rewrite nth_error_firstn. destruct (Nat.ltb_spec p i); [auto|lia].
    + rewrite nth_error_app2 by (rewrite firstn_length; lia). rewrite firstn_length_le by lia.
      destruct (p - i) as [|d] eqn:Ed; [lia|]. cbn [nth_error]. rewrite nth_error_skipn. f_equal; lia.
Qed.
Lemma length_set_row (rows : signal) i row : i < length rows -> length (set_row A rows i row) = length rows.
Proof.
  intros H. unfold set_row. rewrite !app_length, map_length, !firstn_length, !skipn_length. lia.
Qed.
Lemma Forall_nth (P : stream -> Prop) (l : signal) : Forall P l <-> forall p x, nth_error l p = Some x -> P x.
Proof.
  rewrite Forall_forall. split.
  - intros H p x E. apply H. eapply nth_error_In; eauto.
  - intros H x Hx. apply In_nth_error in Hx as [p Hp]. eauto.
Qed.
Lemma set_row_ns (rows : signal) i row ns : i < length rows -> Forall (fun x => length x = ns) rows -> length row = ns ->
  Forall (fun x => length x = ns) (set_row A rows i row).
Proof.
  intros Hi Hr Hl. apply Forall_nth. intros p x Hp. rewrite (nth_set_row rows i row p ns) in Hp by auto.
  destruct (p =? i); [congruence|]. rewrite Forall_nth in Hr. eauto.
Qed.

Lemma set_rows_spec idx : forall (rows vals : signal) ns,
  length vals = length idx -> NoDup idx -> (forall i, In i idx -> i < length rows) ->
  Forall (fun x => length x = ns) rows -> Forall (fun x => length x = ns) vals ->
  length (set_rows A rows idx vals) = length rows /\
  Forall (fun x => length x = ns) (set_rows A rows idx vals) /\
  (forall k p, nth_error idx k = Some p -> nth_error (set_rows A rows idx vals) p = nth_error vals k) /\
  (forall p, ~ In p idx -> nth_error (set_rows A rows idx vals) p = nth_error rows p).
Proof.
  induction idx as [|i idx IH]; intros rows vals ns Hl Hnd Hin Hr Hv; destruct vals as [|v vals]; try discriminate.
  - cbn. repeat split; auto. intros [|k] p; discriminate.
  - inversion Hnd as [|? ? Hni Hnd']; subst. inversion Hv as [|? ? Hv1 Hv2]; subst.
    assert (Hi : i < length rows) by (apply Hin; left; auto).
    cbn [set_rows]. destruct (IH (set_row A rows i v) vals (length v)) as (E1 & E2 & E3 & E4); auto.
    + intros j Hj. rewrite length_set_row by auto. apply Hin; right; auto.
    + apply set_row_ns; auto.
    + rewrite length_set_row in E1 by auto. split; [auto|]. split; [auto|]. split.
      * intros [|k] p Hk; cbn [nth_error] in *.
        -- injection Hk as <-. rewrite E4 by auto. rewrite (nth_set_row rows i v i (length v)) by auto. now rewrite Nat.eqb_refl.
        -- now apply E3.
      * intros p Hp. rewrite E4 by (intros Hp'; apply Hp; right; auto).
        rewrite (nth_set_row rows i v p (length v)) by auto. destruct (Nat.eqb_spec p i) as [->|]; [elim Hp; left; auto|auto].
Qed.

Lemma assign_rows_spec idx (rows vals : signal) ns :
  length vals = length idx -> NoDup idx -> (forall i, In i idx -> i < length rows) ->
  Forall (fun x => length x = ns) rows -> Forall (fun x => length x = ns) vals ->
  exists out, assign_rows A rows idx vals = Ok out /\ length out = length rows /\
  Forall (fun x => length x = ns) out /\
  (forall k p, nth_error idx k = Some p -> nth_error out p = nth_error vals k) /\
  (forall p, ~ In p idx -> nth_error out p = nth_error rows p).
Proof.
  intros Hl Hnd Hin Hr Hv. exists (set_rows A rows idx vals). split; [|now apply set_rows_spec].
  unfold assign_rows. destruct (existsb _ idx) eqn:E.
  - apply existsb_exists in E as (i & Hi & Hle). apply Hin in Hi. apply Nat.leb_le in Hle. lia.
  - now rewrite Hl, Nat.eqb_refl.
Qed.

Lemma select_rows_spec ns (s : signal) idx : (forall i, In i idx -> i < length s) -> Forall (fun x => length x = ns) s ->
  exists out, select_rows A ns s idx = Ok out /\ length out = length idx /\ Forall (fun x => length x = ns) out /\
    (forall k p, nth_error idx k = Some p -> nth_error out k = nth_error s p).
Proof.
  intros Hin Hs. unfold select_rows. destruct (existsb _ idx) eqn:E.
  - apply existsb_exists in E as (i & Hi & Hle). apply Hin in Hi. apply Nat.leb_le in Hle. lia.
  - eexists; split; [reflexivity|]. rewrite map_length. split; [auto|].
    assert (Hnth : forall p, In p idx -> nth_error s p = Some (firstn ns (nth p s []))).
    { intros p Hp. specialize (Hin p Hp). rewrite (nth_error_nth' s [] Hin). f_equal.
      rewrite firstn_all2; auto. rewrite Forall_forall in Hs. rewrite Hs; auto. apply nth_In; auto. }
    split.
    + apply Forall_forall. intros x Hx. apply in_map_iff in Hx as (p & <- & Hp).
      rewrite Forall_forall in Hs. apply Hs. apply (nth_error_In s p). auto.
    + intros k p Hk. rewrite nth_error_map', Hk. cbn. symmetry. apply Hnth. eapply nth_error_In; eauto.
Qed.
End Rows.

Section Propagation.
Variable A : Type.
Variable zero : A.
Variable ns : nat.
Variable c : chain A.
Notation signal := (list (list A)).
Hypothesis Hsound : sound c.
Hypothesis Hshape : shapely c ns.
Variable ext : nat -> option signal.

Definition open_of (r : nat) : list nat :=
  filter (fun p => negb (member p (flat_map (fun e => snd (snd e)) (ch_inc c r)))) (seq 0 (b_in (block_at c r))).
Hypothesis Hext : forall r s, ext r = Some s -> length s = length (open_of r) /\ Forall (fun x => length x = ns) s.

Definition shaped (r : nat) (s : signal) : Prop :=
  length s = b_out (block_at c r) /\ Forall (fun x => length x = ns) s.

Lemma open_unwired r : unwired_ports c r (open_of r).
Proof.
  unfold unwired_ports, open_of. apply filter_ext. intros p. f_equal.
  unfold member. induction (ch_inc c r) as [|e l IH]; [reflexivity|]. cbn. rewrite existsb_app, IH. reflexivity.
Qed.

Lemma open_ports_ok r : open_input_ports c r = Ok (open_of r).
Proof.
  unfold open_input_ports, open_of. apply remove_all_filter; [apply seq_NoDup|apply Hsound|].
  intros p Hp. apply in_flat_map in Hp as ([o [ops ips]] & He & Hp). cbn in Hp.
  apply in_seq. destruct (s_ports A c Hsound r o ops ips He) as (_ & _ & H). specialize (H p Hp). lia.
Qed.

(** Assembling the input of a block from correctly shaped predecessor outputs. *)
Lemma impinge_spec (out : nat -> signal) : forall conns (input : signal) n,
  length input = n -> Forall (fun x => length x = ns) input ->
  (forall o ops ips, In (o, (ops, ips)) conns -> shaped o (out o) /\ length ops = length ips /\
      (forall p, In p ops -> p < b_out (block_at c o)) /\ (forall p, In p ips -> p < n)) ->
  NoDup (flat_map (fun e : conn => snd (snd e)) conns) ->
  exists res, impinge A ns input conns (map (fun e => out (fst e)) conns) = Ok res /\
    length res = n /\ Forall (fun x => length x = ns) res /\
    (forall o ops ips k p q, In (o, (ops, ips)) conns -> nth_error ops k = Some q -> nth_error ips k = Some p ->
        nth_error res p = nth_error (out o) q) /\
    (forall p, ~ In p (flat_map (fun e : conn => snd (snd e)) conns) -> nth_error res p = nth_error input p).
Proof.
  induction conns as [|[o [ops ips]] conns IH]; intros input n Hn Hi Hc Hnd; cbn [map impinge].
  - exists input. repeat split; auto. intros o ops ips k p q [].
  - destruct (Hc o ops ips (or_introl eq_refl)) as ([So1 So2] & Hlen & Hops & Hips).
    cbn [flat_map snd fst] in *.
    assert (Hnd1 : NoDup ips) by ((clear - Hnd; induction ips as [|x l IHl]; [constructor|]; cbn in Hnd; inversion Hnd; subst; constructor; [rewrite in_app_iff in *; tauto|auto])).
    assert (Hnd2 : NoDup (flat_map (fun e : conn => snd (snd e)) conns))
      by (clear - Hnd; induction ips as [|x l IHl]; [auto|]; cbn in Hnd; inversion Hnd; auto).
    assert (Hdis : forall p, In p ips -> ~ In p (flat_map (fun e : conn => snd (snd e)) conns)).
    { clear - Hnd. induction ips as [|x l IHl]; intros p Hp; [destruct Hp|]. cbn in Hnd; inversion Hnd as [|? ? H1 H2]; subst.
      destruct Hp as [->|Hp]; [rewrite in_app_iff in H1; tauto|auto]. }
    destruct (select_rows_spec A ns (out o) ops) as (vals & Ev & Vl & Vf & Vn); [intros p Hp; rewrite So1; auto|auto|].
    rewrite Ev. cbn [bind].
    destruct (assign_rows_spec A ips input vals ns) as (inp' & Ea & Al & Af & An & Ao); auto.
    { lia. } { intros p Hp. rewrite Hn. auto. }
    rewrite Ea. cbn [bind].
    destruct (IH inp' n) as (res & Er & Rl & Rf & Rn & Ro); auto.
    { lia. } { intros; apply Hc; right; auto. }
    exists res. split; [auto|]. split; [auto|]. split; [auto|]. split.
    + intros o' ops' ips' k p q [E|Hin] Hq Hp.
      * injection E as <- <- <-. rewrite Ro by (apply Hdis; eapply nth_error_In; eauto).
        rewrite (An k p Hp). now apply Vn.
      * eapply Rn; eauto.
    + intros p Hp. rewrite in_app_iff in Hp. rewrite Ro by tauto. apply Ao. tauto.
Qed.

Definition input_ok (r : nat) (out : nat -> signal) (input : signal) : Prop :=
  length input = b_in (block_at c r) /\ Forall (fun x => length x = ns) input /\
  (forall w, wired c w -> w_i w = r -> nth_error input (w_ip w) = nth_error (out (w_o w)) (w_op w)) /\
  (forall k p, nth_error (open_of r) k = Some p ->
      nth_error input p = match ext r with Some s => nth_error s k | None => Some (repeat zero ns) end).

Lemma in_combine_nth {X Y} (l1 : list X) (l2 : list Y) x y : In (x, y) (combine l1 l2) ->
  exists k, nth_error l1 k = Some x /\ nth_error l2 k = Some y.
Proof.
  revert l2; induction l1 as [|a l1 IH]; intros [|b l2] H; try destruct H.
  - injection H as <- <-. exists 0; auto.
  - destruct (IH l2 H) as (k & H1 & H2). exists (S k); auto.
Qed.
Lemma nth_zeros n p : p < n -> nth_error (zeros A zero ns n) p = Some (repeat zero ns).
Proof.
  intros H. unfold zeros. rewrite (nth_error_nth' _ (repeat zero ns)) by (rewrite repeat_length; auto).
  f_equal. destruct (nth_in_or_default p (repeat (repeat zero ns) n) (repeat zero ns)) as [Hi|Hd]; [now apply repeat_spec in Hi|auto].
Qed.

Lemma block_input_spec r (out : nat -> signal) :
  (forall o v, In (o, v) (ch_inc c r) -> shaped o (out o)) ->
  exists input, block_input A zero ns c ext r (map (fun e => out (fst e)) (ch_inc c r)) = Ok input /\ input_ok r out input.
Proof.
  intros Hout. unfold block_input.
  destruct (impinge_spec out (ch_inc c r) (zeros A zero ns (b_in (block_at c r))) (b_in (block_at c r)))
    as (res & Er & Rl & Rf & Rn & Ro).
  - unfold zeros; apply repeat_length.
  - apply Forall_forall. intros x Hx. unfold zeros in Hx. apply repeat_spec in Hx. subst. apply repeat_length.
  - intros o ops ips Hin. destruct (s_ports A c Hsound r o ops ips Hin) as (H1 & H2 & H3).
    split; [eapply Hout; eauto|]. auto.
  - apply Hsound.
  - rewrite Er. cbn [bind].
    assert (Hw : forall w, wired c w -> w_i w = r -> nth_error res (w_ip w) = nth_error (out (w_o w)) (w_op w) /\
                 In (w_ip w) (flat_map (fun e : conn => snd (snd e)) (ch_inc c r))).
    { intros w (ops & ips & Hin & Hc) Hr. rewrite Hr in Hin. apply in_combine_nth in Hc as (k & K1 & K2).
      split; [eapply Rn; eauto|]. apply in_flat_map. exists (w_o w, (ops, ips)). split; auto. cbn. eapply nth_error_In; eauto. }
    assert (Hopen : forall k p, nth_error (open_of r) k = Some p ->
        p < b_in (block_at c r) /\ ~ In p (flat_map (fun e : conn => snd (snd e)) (ch_inc c r))).
    { intros k p Hk. apply nth_error_In in Hk. unfold open_of in Hk. apply filter_In in Hk as [H1 H2].
      apply in_seq in H1. split; [lia|]. rewrite <- member_In. destruct (member p _); [discriminate|congruence]. }
    destruct (ext r) as [s|] eqn:Ee.
    + rewrite open_ports_ok. cbn [bind]. destruct (Hext r s Ee) as [El Ef].
      destruct (assign_rows_spec A (open_of r) res s ns) as (inp' & Ea & Al & Af & An & Ao); auto.
      { unfold open_of. apply NoDup_filter, seq_NoDup. }
      { intros i Hi. apply In_nth_error in Hi as [k Hk]. rewrite Rl. eapply Hopen; eauto. }
      exists inp'. split; [auto|]. split; [lia|]. split; [auto|]. split.
      * intros w W1 W2. destruct (Hw w W1 W2) as [<- Hin]. apply Ao. intros Hi.
        apply In_nth_error in Hi as [k Hk]. apply Hopen in Hk. tauto.
      * rewrite Ee. apply An.
    + exists res. split; [auto|]. split; [auto|]. split; [auto|]. split.
      * intros w W1 W2. now apply Hw.
      * rewrite Ee. intros k p Hk. apply Hopen in Hk as [H1 H2]. rewrite Ro by auto. now apply nth_zeros.
Qed.

(** The solution of the block equations. *)
Fixpoint sol (k r : nat) : signal :=
  match k with
  | 0 => []
  | S k' => match block_input A zero ns c ext r (map (fun e => sol k' (fst e)) (ch_inc c r)) with
            | Ok inp => b_prop (block_at c r) inp
            | Raise _ => []
            end
  end.

Variable rank : nat -> nat.
Hypothesis Hrank : forall r o ps, In (o, ps) (ch_inc c r) -> rank o < rank r.

Lemma sol_stable k1 : forall k2 r, rank r < k1 -> rank r < k2 -> sol k1 r = sol k2 r.
Proof.
  induction k1 as [|k1 IH]; intros [|k2] r H1 H2; try lia. cbn [sol].
  rewrite (map_ext_in (fun e => sol k1 (fst e)) (fun e => sol k2 (fst e))); [reflexivity|].
  intros [o ps] He. cbn. pose proof (Hrank r o ps He). apply IH; lia.
Qed.
Definition outp (r : nat) : signal := sol (S (rank r)) r.

Lemma outp_eq r : (forall o v, In (o, v) (ch_inc c r) -> shaped o (outp o)) ->
  exists input, block_input A zero ns c ext r (map (fun e => outp (fst e)) (ch_inc c r)) = Ok input /\
    input_ok r outp input /\ outp r = b_prop (block_at c r) input.
Proof.
  intros Hs. destruct (block_input_spec r outp Hs) as (input & E & Hok). exists input.
  split; [auto|]. split; [auto|]. unfold outp at 1. cbn [sol].
  rewrite (map_ext_in (fun e => sol (rank r) (fst e)) (fun e => outp (fst e))); [now rewrite E|].
  intros [o ps] He. cbn [fst]. pose proof (Hrank r o ps He). apply (sol_stable (rank r) (S (rank o)) o); lia.
Qed.
Lemma outp_shaped : forall n r, rank r < n -> shaped r (outp r).
Proof.
  induction n as [|n IH]; intros r Hr; [lia|].
  destruct (outp_eq r) as (input & _ & (H1 & H2 & _) & ->).
  - intros o v Hin. apply IH. pose proof (Hrank r o v Hin). lia.
  - unfold shaped. now apply Hshape.
Qed.
Lemma outp_solves r : exists input, block_input A zero ns c ext r (map (fun e => outp (fst e)) (ch_inc c r)) = Ok input /\
    input_ok r outp input /\ outp r = b_prop (block_at c r) input.
Proof. apply outp_eq. intros o v _. eapply outp_shaped; eauto. Qed.

Lemma outp_equations : block_equations zero ns c ext outp.
Proof.
  intros r. destruct (outp_solves r) as (input & _ & (H1 & H2 & H3 & H4) & E).
  exists input. split; [auto|]. split; [auto|]. split; [auto|].
  intros ports k p Hp Hk. pose proof (open_unwired r) as Ho. unfold unwired_ports in *. subst ports.
  rewrite <- Ho in Hk. now apply H4.
Qed.

Lemma port_cases r p : p < b_in (block_at c r) ->
  (exists w, wired c w /\ w_i w = r /\ w_ip w = p) \/ (exists k, nth_error (open_of r) k = Some p).
Proof.
  intros Hp. destruct (member p (flat_map (fun e => snd (snd e)) (ch_inc c r))) eqn:E.
  - left. apply member_In, in_flat_map in E as ([o [ops ips]] & He & Hin). cbn in Hin.
    destruct (s_ports A c Hsound r o ops ips He) as (Hl & _).
    apply In_nth_error in Hin as [k Hk].
    destruct (nth_error ops k) as [q|] eqn:Eq; [|apply nth_error_None in Eq; assert (k < length ips) by (apply nth_error_Some; congruence); lia].
    exists (mkWire o q r p). cbn. split; [|auto]. exists ops, ips. cbn. split; auto.
    clear - Hk Eq. revert ips k Hk Eq; induction ops as [|x ops IH]; intros [|y ips] [|k] Hk Eq; try discriminate; cbn in *.
    + left; congruence.
    + right; eauto.
  - right. apply In_nth_error. unfold open_of. apply filter_In. split; [apply in_seq; lia|now rewrite E].
Qed.

Lemma solution_unique out1 out2 : block_equations zero ns c ext out1 -> block_equations zero ns c ext out2 ->
  forall n r, rank r < n -> out1 r = out2 r.
Proof.
  intros E1 E2. induction n as [|n IH]; intros r Hr; [lia|].
  destruct (E1 r) as (i1 & -> & L1 & W1 & U1), (E2 r) as (i2 & -> & L2 & W2 & U2). f_equal.
  apply nth_error_ext. intros p. destruct (Nat.lt_ge_cases p (b_in (block_at c r))) as [Hp|Hp].
  - destruct (port_cases r p Hp) as [(w & Hw & Hi & <-)|(k & Hk)].
    + rewrite (W1 w Hw Hi), (W2 w Hw Hi). rewrite IH; [auto|].
      destruct Hw as (ops & ips & Hin & _). rewrite Hi in Hin. apply Hrank in Hin. lia.
    + rewrite (U1 _ k p (open_unwired r) Hk), (U2 _ k p (open_unwired r) Hk). reflexivity.
  - rewrite !(proj2 (nth_error_None _ _)); auto; lia.
Qed.

(** The memoised evaluation. *)
Definition memo_ok (st : gstate A) : Prop :=
  (forall r s, lookup A r (g_memo st) = Some s -> s = outp r) /\
  NoDup (g_log st) /\ (forall r, In r (g_log st) <-> lookup A r (g_memo st) <> None).
Definition grows (n : nat) (st st' : gstate A) : Prop :=
  (forall r, lookup A r (g_memo st) <> None -> lookup A r (g_memo st') <> None) /\
  (forall r, lookup A r (g_memo st') <> None -> lookup A r (g_memo st) <> None \/ rank r < n).

Lemma generate_spec fuel : forall r st, rank r < fuel -> memo_ok st ->
  exists st', generate A zero ns fuel c ext r st = Ok (outp r, st') /\ memo_ok st' /\ grows (S (rank r)) st st'.
Proof.
  induction fuel as [|fuel IH]; intros r st Hf Hm; [lia|]. cbn [generate].
  destruct (lookup A r (g_memo st)) as [s|] eqn:El.
  - exists st. destruct Hm as [M1 M2]. rewrite (M1 r s El). split; [auto|]. split; [split; auto|]. split; auto.
  - assert (Hgl : forall conns st0, (forall o v, In (o, v) conns -> rank o < rank r) -> memo_ok st0 ->
        exists st', gen_list A (generate A zero ns fuel c ext) conns st0 = Ok (map (fun e => outp (fst e)) conns, st') /\
          memo_ok st' /\ grows (rank r) st0 st').
    { induction conns as [|[o v] conns IHc]; intros st0 Hc Hm0; cbn [gen_list map].
      - exists st0. split; [auto|]. split; [auto|]. split; auto.
      - assert (Ho : rank o < rank r) by (eapply Hc; left; reflexivity).
        destruct (IH o st0 ltac:(lia) Hm0) as (st1 & E1 & M1 & G1a & G1b). rewrite E1. cbn [bind].
        destruct (IHc st1) as (st2 & E2 & M2 & G2a & G2b); auto. { intros; eapply Hc; right; eauto. }
        rewrite E2. cbn [bind fst]. exists st2. split; [auto|]. split; [auto|]. split.
        + intros x Hx. auto.
        + intros x Hx. destruct (G2b x Hx) as [H|H]; [|auto]. destruct (G1b x H); [auto|right; lia]. }
    destruct (Hgl (ch_inc c r) st) as (st1 & E1 & M1 & G1a & G1b); auto. { intros o v Hin. eapply Hrank; eauto. }
    rewrite E1. cbn [bind].
    destruct (outp_solves r) as (input & Ei & _ & Eo). rewrite Ei. cbn [bind]. rewrite <- Eo.
    eexists. split; [reflexivity|].
    assert (Hnone : lookup A r (g_memo st1) = None).
    { destruct (lookup A r (g_memo st1)) eqn:E; [|auto]. destruct (G1b r ltac:(congruence)) as [H|H]; [congruence|lia]. }
    destruct M1 as (Ma & Mb & Mc). split.
    + split; [|split]; cbn [g_memo g_log lookup].
      * intros x s Hx. destruct (Nat.eqb_spec r x) as [->|]; [congruence|auto].
      * apply NoDup_snoc; auto. intros Hi. apply Mc in Hi. congruence.
      * intros x. rewrite in_app_iff, Mc. cbn [In]. destruct (Nat.eqb_spec r x) as [->|].
        -- split; [discriminate|auto].
        -- intuition congruence.
    + split; cbn [g_memo lookup]; intros x Hx; destruct (Nat.eqb_spec r x) as [->|]; try discriminate; auto.
      destruct (G1b x Hx); [auto|right; lia].
Qed.

Lemma collect_spec fuel l : (forall r, In r l -> rank r < fuel) -> forall st, memo_ok st ->
  exists st', collect A zero ns fuel c ext l st = Ok (flat_map outp l, st') /\ memo_ok st'.
Proof.
  intros Hf. induction l as [|r l IH]; intros st Hm; cbn [collect flat_map].
  - exists st. auto.
  - destruct (generate_spec fuel r st) as (st1 & E1 & M1 & _); auto. { apply Hf; left; auto. }
    rewrite E1. cbn [bind]. destruct (IH (fun x Hx => Hf x (or_intror Hx)) st1 M1) as (st2 & E2 & M2).
    rewrite E2. cbn [bind]. exists st2. auto.
Qed.
Lemma memo_ok_empty : memo_ok (mkG [] []).
Proof. split; [|split]; cbn; [discriminate|constructor|]. intros; split; [tauto|congruence]. Qed.
End Propagation.

Arguments outp {A}. Arguments open_of {A}.

(** Distributing the streams of the external signal. *)
Section Origins.
Variable A : Type.
Variable c : chain A.
Notation signal := (list (list A)).

Lemma dsp_origins_spec (ext : nat -> signal) l : NoDup l -> (forall r, In r l -> length (ext r) = b_in (block_at c r)) ->
  forall r, dsp_origins A c l (flat_map ext l) r = if member r l then Some (ext r) else None.
Proof.
  induction l as [|x l IH]; intros Hnd Hl r; [reflexivity|]. inversion Hnd as [|? ? Hx Hnd']; subst.
  cbn [dsp_origins flat_map]. unfold upd. rewrite <- (Hl x (or_introl eq_refl)).
  rewrite firstn_app, firstn_all, Nat.sub_diag. cbn [firstn]. rewrite app_nil_r.
  unfold member in *; cbn [existsb]. destruct (Nat.eqb_spec r x) as [->|]; cbn [orb]; [reflexivity|].
  rewrite skipn_app, skipn_all, Nat.sub_diag. cbn [app skipn]. apply IH; auto. intros; apply Hl; right; auto.
Qed.
Lemma rf_origins_spec (ext : nat -> signal) l : NoDup l -> sound c -> (forall r, In r l -> length (ext r) = length (open_of c r)) ->
  exists f, rf_origins A c l (flat_map ext l) = Ok f /\ forall r, f r = if member r l then Some (ext r) else None.
Proof.
  intros Hnd Hs. induction l as [|x l IH]; intros Hl; [exists (fun _ => None); auto|]. inversion Hnd as [|? ? Hx Hnd']; subst.
  cbn [rf_origins flat_map]. rewrite (open_ports_ok A c Hs). cbn [bind]. rewrite <- (Hl x (or_introl eq_refl)).
  rewrite skipn_app, skipn_all, Nat.sub_diag. cbn [app skipn].
  destruct IH as (f & Ef & Hf); auto. { intros; apply Hl; right; auto. }
  rewrite Ef. cbn [bind]. eexists; split; [reflexivity|]. intros r. unfold upd.
  rewrite firstn_app, firstn_all, Nat.sub_diag. cbn [firstn]. rewrite app_nil_r.
  unfold member in *; cbn [existsb]. destruct (Nat.eqb_spec r x) as [->|]; cbn [orb]; auto.
Qed.
End Origins.

(** Evaluation only looks at the external signal pointwise. *)
Lemma generate_ext A zero ns c e1 e2 : (forall r, e1 r = e2 r) -> forall fuel r st,
  generate A zero ns fuel c e1 r st = generate A zero ns fuel c e2 r st.
Proof.
  intros He. induction fuel as [|fuel IH]; intros r st; [reflexivity|]. cbn [generate].
  destruct (lookup A r (g_memo st)); [reflexivity|].
  assert (Hg : forall conns st0, gen_list A (generate A zero ns fuel c e1) conns st0 = gen_list A (generate A zero ns fuel c e2) conns st0).
  { induction conns as [|[o v] conns IHc]; intros st0; [reflexivity|]. cbn [gen_list]. rewrite IH.
    destruct (generate A zero ns fuel c e2 o st0) as [[s st1]|]; [|reflexivity]. cbn [bind]. now rewrite IHc. }
  rewrite Hg. unfold block_input. rewrite He. reflexivity.
Qed.
Lemma collect_ext A zero ns c e1 e2 fuel l : (forall r, e1 r = e2 r) -> forall st,
  collect A zero ns fuel c e1 l st = collect A zero ns fuel c e2 l st.
Proof.
  intros He. induction l as [|r l IH]; intros st; [reflexivity|]. cbn [collect].
  rewrite (generate_ext A zero ns c e1 e2 He). destruct (generate A zero ns fuel c e2 r st) as [[s st1]|]; [|reflexivity].
  cbn [bind]. now rewrite IH.
Qed.
Lemma block_equations_ext A (zero : A) ns c e1 e2 out : (forall r, e1 r = e2 r) ->
  block_equations zero ns c e1 out -> block_equations zero ns c e2 out.
Proof. intros He H r. destruct (H r) as (i & H1 & H2 & H3 & H4). exists i. rewrite He in H4. auto. Qed.
