(** Proofs about serialization: what writing changes in a file, for every object graph. *)
From Coq Require Import List Arith Bool ZArith String Lia Decimal DecimalString DecimalNat.
From Verif Require Import Base BaseLemmas Ser_Model Ser_Spec.
Import ListNotations.
Open Scope nat_scope.

(** * Tables *)
Lemma path_eqb_true : forall p q, path_eqb p q = true <-> p = q.
Proof. intros p q. unfold path_eqb. destruct (list_eq_dec string_dec p q); split; congruence. Qed.
Lemma path_eqb_refl : forall p, path_eqb p p = true.
Proof. intros p. apply path_eqb_true. reflexivity. Qed.
Lemma path_eqb_false : forall p q, p <> q -> path_eqb p q = false.
Proof. intros p q Hn. destruct (path_eqb p q) eqn:E; [apply path_eqb_true in E; congruence|reflexivity]. Qed.

Lemma lookup_app_none : forall A (k : path) (l l' : list (path * A)),
  (forall x, In x l -> fst x <> k) -> lookup k (l ++ l') = lookup k l'.
Proof.
  intros A k l l' Hn. induction l as [|[k' v] l IH]; [reflexivity|].
  cbn [List.app lookup]. rewrite path_eqb_false; [apply IH; intros x Hx; apply Hn; right; exact Hx|].
  intros E. apply (Hn (k', v)); [left; reflexivity|]. symmetry. exact E.
Qed.
Lemma lookup_cons_eq : forall A (k : path) (v : A) l, lookup k ((k, v) :: l) = Some v.
Proof. intros. cbn [lookup]. rewrite path_eqb_refl. reflexivity. Qed.
Lemma lookup_cons_ne : forall A (k k' : path) (v : A) l, k <> k' -> lookup k ((k', v) :: l) = lookup k l.
Proof. intros. cbn [lookup]. rewrite path_eqb_false by assumption. reflexivity. Qed.
Lemma assoc_cons_eq : forall A k (v : A) l, assoc k ((k, v) :: l) = Some v.
Proof. intros. cbn [assoc]. rewrite Nat.eqb_refl. reflexivity. Qed.
Lemma assoc_cons_ne : forall A k k' (v : A) l, k <> k' -> assoc k ((k', v) :: l) = assoc k l.
Proof. intros. cbn [assoc]. destruct (Nat.eqb_spec k k'); [congruence|reflexivity]. Qed.

(** * What is in a file *)
Definition holds (st : wstate) (p : path) : Prop := has st p = true.
Definition exists_group (st : wstate) (g : path) : Prop := g = [] \/ holds st g.

Lemma holds_lookup : forall st p, holds st p <-> exists e, lookup p (entries (file st)) = Some e.
Proof.
  intros st p. unfold holds, has. destruct (lookup p (entries (file st))) as [e|]; cbn [is_some]; split; intros Hx.
  - exists e. reflexivity.
  - reflexivity.
  - discriminate.
  - destruct Hx as [e He]. discriminate.
Qed.
Lemma not_holds : forall st p, has st p = false -> lookup p (entries (file st)) = None.
Proof. intros st p. unfold has. destruct (lookup p (entries (file st))); cbn [is_some]; congruence. Qed.

(** ** States reached by writing: parents exist, cached paths exist and are distinct, cached arrays are stored *)
Record wf (content : nat -> array) (st : wstate) : Prop := {
  wf_entry : forall m x, holds st (m :: x) -> exists_group st x;
  wf_attr : forall m x s, lookup (m :: x) (attrs (file st)) = Some s -> exists_group st x;
  wf_obj : forall a p, assoc a (wobjects st) = Some p -> holds st p;
  wf_obj_inj : forall a b p, assoc a (wobjects st) = Some p -> assoc b (wobjects st) = Some p -> a = b;
  wf_arr : forall u p, assoc u (warrays st) = Some p -> lookup p (entries (file st)) = Some (EData (content u));
  wf_arr_inj : forall u v p, assoc u (warrays st) = Some p -> assoc v (warrays st) = Some p -> u = v;
  wf_nil : ~ holds st []
}.

(** ** What was added: the new keys of links satisfy [P], those of attributes satisfy [Q] *)
Record adds (P Q : path -> Prop) (st st' : wstate) : Prop := {
  add_e : exists ne, entries (file st') = ne ++ entries (file st) /\ Forall (fun x => P (fst x)) ne;
  add_a : exists na, attrs (file st') = na ++ attrs (file st) /\ Forall (fun x => Q (fst x)) na;
  add_o : forall a p, assoc a (wobjects st) = Some p -> assoc a (wobjects st') = Some p;
  add_r : forall u p, assoc u (warrays st) = Some p -> assoc u (warrays st') = Some p
}.

Lemma adds_refl : forall P Q st, adds P Q st st.
Proof. intros. split; try (exists []; split; [reflexivity|constructor]); auto. Qed.
Lemma adds_weak : forall P Q (P' Q' : path -> Prop) st st',
  adds P Q st st' -> (forall k, P k -> P' k) -> (forall k, Q k -> Q' k) -> adds P' Q' st st'.
Proof.
  intros P Q P' Q' st st' [[ne [He1 He2]] [na [Ha1 Ha2]] Ho Hr] HP HQ. split; auto.
  - exists ne. split; [exact He1|]. eapply Forall_impl; [|exact He2]. intros x. apply HP.
  - exists na. split; [exact Ha1|]. eapply Forall_impl; [|exact Ha2]. intros x. apply HQ.
Qed.
Lemma adds_trans : forall P Q st1 st2 st3, adds P Q st1 st2 -> adds P Q st2 st3 -> adds P Q st1 st3.
Proof.
  intros P Q st1 st2 st3 [[ne [He1 He2]] [na [Ha1 Ha2]] Ho Hr] [[ne' [He1' He2']] [na' [Ha1' Ha2']] Ho' Hr'].
  split; auto.
  - exists (ne' ++ ne). split; [rewrite He1', He1, app_assoc; reflexivity|]. apply Forall_app. split; assumption.
  - exists (na' ++ na). split; [rewrite Ha1', Ha1, app_assoc; reflexivity|]. apply Forall_app. split; assumption.
Qed.
Lemma adds_lookup_e : forall P Q st st' k, adds P Q st st' -> ~ P k -> lookup k (entries (file st')) = lookup k (entries (file st)).
Proof.
  intros P Q st st' k [[ne [He1 He2]] _ _ _] Hn. rewrite He1. apply lookup_app_none.
  intros x Hx E. rewrite Forall_forall in He2. apply He2 in Hx. rewrite E in Hx. contradiction.
Qed.
Lemma adds_lookup_a : forall P Q st st' k, adds P Q st st' -> ~ Q k -> lookup k (attrs (file st')) = lookup k (attrs (file st)).
Proof.
  intros P Q st st' k [_ [na [Ha1 Ha2]] _ _] Hn. rewrite Ha1. apply lookup_app_none.
  intros x Hx E. rewrite Forall_forall in Ha2. apply Ha2 in Hx. rewrite E in Hx. contradiction.
Qed.
Lemma lookup_app_some : forall A (k : path) (l l' : list (path * A)), lookup k l' <> None -> lookup k (l ++ l') <> None.
Proof.
  intros A k l l' Hn. induction l as [|[k' v] l IH]; [exact Hn|]. cbn [List.app lookup]. destruct (path_eqb k k'); [discriminate|exact IH].
Qed.
Lemma adds_holds : forall P Q st st' k, adds P Q st st' -> holds st k -> holds st' k.
Proof.
  intros P Q st st' k [[ne [He1 _]] _ _ _] Hk. unfold holds, has in *. rewrite He1.
  destruct (lookup k (ne ++ entries (file st))) eqn:E; [reflexivity|].
  exfalso. revert E. apply lookup_app_some. destruct (lookup k (entries (file st))); [discriminate|]. cbn [is_some] in Hk. discriminate Hk.
Qed.
Lemma adds_exists : forall P Q st st' k, adds P Q st st' -> exists_group st k -> exists_group st' k.
Proof. intros P Q st st' k Ha [Hk|Hk]; [left; exact Hk|right; eapply adds_holds; eassumption]. Qed.

(** ** Single additions *)
Lemma adds_entry : forall (P Q : path -> Prop) st k e, P k -> adds P Q st (add_entry st k e).
Proof.
  intros P Q st k e Hp. split; cbn; auto.
  - exists [(k, e)]. split; [reflexivity|]. constructor; [exact Hp|constructor].
  - exists []. split; [reflexivity|constructor].
Qed.
Lemma adds_attr : forall (P Q : path -> Prop) st k s, Q k -> adds P Q st (set_attr st k s).
Proof.
  intros P Q st k s Hq. split; cbn; auto.
  - exists []. split; [reflexivity|constructor].
  - exists [(k, s)]. split; [reflexivity|]. constructor; [exact Hq|constructor].
Qed.
Lemma adds_object : forall (P Q : path -> Prop) st a p, assoc a (wobjects st) = None -> adds P Q st (remember_object st a p).
Proof.
  intros P Q st a p Hn. split; cbn [remember_object file wobjects warrays]; auto.
  - exists []. split; [reflexivity|constructor].
  - exists []. split; [reflexivity|constructor].
  - intros b q Hb. rewrite assoc_cons_ne; [exact Hb|]. intros ->. congruence.
Qed.
Lemma adds_array : forall (P Q : path -> Prop) st u p, assoc u (warrays st) = None -> adds P Q st (remember_array st u p).
Proof.
  intros P Q st a p Hn. split; cbn [remember_array file wobjects warrays]; auto.
  - exists []. split; [reflexivity|constructor].
  - exists []. split; [reflexivity|constructor].
  - intros b q Hb. rewrite assoc_cons_ne; [exact Hb|]. intros ->. congruence.
Qed.

Lemma holds_entry : forall st k e p, holds (add_entry st k e) p <-> p = k \/ holds st p.
Proof.
  intros st k e p. unfold holds, has, add_entry. cbn [file entries lookup].
  destruct (path_eqb p k) eqn:E.
  - apply path_eqb_true in E. cbn [is_some]. split; auto.
  - split; [auto|]. intros [->|Hx]; [rewrite path_eqb_refl in E; discriminate|exact Hx].
Qed.
Lemma exists_entry : forall st k e g, exists_group st g -> exists_group (add_entry st k e) g.
Proof. intros st k e g [Hg|Hg]; [left; exact Hg|right]. apply holds_entry. right. exact Hg. Qed.

Lemma wf_add_entry : forall content st n g e, wf content st -> exists_group st g -> has st (n :: g) = false ->
  wf content (add_entry st (n :: g) e).
Proof.
  intros content st n g e Hw Hg Hf. destruct Hw as [W1 W2 W3 W4 W5 W6 W7]. split.
  - intros m x Hx. apply holds_entry in Hx. destruct Hx as [E|Hx].
    + injection E as -> ->. apply exists_entry. exact Hg.
    + apply exists_entry. eapply W1. exact Hx.
  - intros m x s Hx. apply exists_entry. eapply W2. exact Hx.
  - intros a p Hp. apply holds_entry. right. eapply W3. exact Hp.
  - exact W4.
  - intros u p Hp. cbn [add_entry file entries]. rewrite lookup_cons_ne; [apply W5; exact Hp|].
    intros ->. apply W5 in Hp. apply not_holds in Hf. congruence.
  - exact W6.
  - intros Hx. apply holds_entry in Hx. destruct Hx as [E|Hx]; [discriminate|exact (W7 Hx)].
Qed.
Lemma wf_set_attr : forall content st n g s, wf content st -> exists_group st g -> wf content (set_attr st (n :: g) s).
Proof.
  intros content st n g s [W1 W2 W3 W4 W5 W6 W7] Hg. split; auto.
  intros m x t Hx. cbn [set_attr file attrs lookup] in Hx. destruct (path_eqb (m :: x) (n :: g)) eqn:E.
  - apply path_eqb_true in E. injection E as -> ->. exact Hg.
  - eapply W2. exact Hx.
Qed.
Lemma wf_remember_object : forall content st a p, wf content st -> holds st p ->
  (forall b, assoc b (wobjects st) <> Some p) -> wf content (remember_object st a p).
Proof.
  intros content st a p [W1 W2 W3 W4 W5 W6 W7] Hp Hn. split; auto.
  - intros b q Hb. cbn [remember_object wobjects assoc] in Hb. destruct (b =? a); [|eapply W3; exact Hb].
    injection Hb as <-. exact Hp.
  - intros b c q Hb Hc. cbn [remember_object wobjects assoc] in Hb, Hc.
    destruct (Nat.eqb_spec b a), (Nat.eqb_spec c a); subst; try congruence.
    exact (W4 _ _ _ Hb Hc).
Qed.
Lemma wf_remember_array : forall content st u p, wf content st -> lookup p (entries (file st)) = Some (EData (content u)) ->
  (forall b, assoc b (warrays st) <> Some p) -> wf content (remember_array st u p).
Proof.
  intros content st a p [W1 W2 W3 W4 W5 W6 W7] Hp Hn. split; auto.
  - intros b q Hb. cbn [remember_array warrays assoc] in Hb. destruct (Nat.eqb_spec b a); [|apply W5; exact Hb].
    injection Hb as <-. subst b. exact Hp.
  - intros b c q Hb Hc. cbn [remember_array warrays assoc] in Hb, Hc.
    destruct (Nat.eqb_spec b a), (Nat.eqb_spec c a); subst; try congruence.
    exact (W6 _ _ _ Hb Hc).
Qed.
Lemma fresh_object_path : forall content st p a, wf content st -> has st p = false -> assoc a (wobjects st) <> Some p.
Proof. intros content st p a Hw Hf E. apply (wf_obj _ _ Hw) in E. unfold holds in E. congruence. Qed.
Lemma fresh_array_path : forall content st p a, wf content st -> has st p = false -> assoc a (warrays st) <> Some p.
Proof. intros content st p a Hw Hf E. apply (wf_arr _ _ Hw) in E. apply not_holds in Hf. congruence. Qed.

(** * Writing anything: nothing that exists is changed *)
(** New links are new, new attributes belong to new groups *)
Definition new_link (st : wstate) (k : path) : Prop := ~ holds st k.
Definition new_attr (st : wstate) (k : path) : Prop := ~ exists_group st (tl k).

Lemma adds_rebase : forall st st1 st2,
  adds (new_link st) (new_attr st) st st1 -> adds (new_link st1) (new_attr st1) st1 st2 -> adds (new_link st) (new_attr st) st st2.
Proof.
  intros st st1 st2 Ha Hb. apply (adds_trans _ _ _ st1); [exact Ha|]. eapply adds_weak; [exact Hb| |].
  - intros k Hk Hc. apply Hk. eapply adds_holds; eassumption.
  - intros k Hk Hc. apply Hk. eapply adds_exists; eassumption.
Qed.

(** Arrays of the heap have the contents of their identifiers *)
Definition arrays_ok (content : nat -> array) (fs : list (string * value)) : Prop :=
  forall n u a, In (n, VArray true u a) fs -> a = content u.

Lemma serialize_array_wf : forall content st g cache u a n,
  wf content st -> exists_group st g -> (cache = true -> a = content u) ->
  wf content (serialize_array st g cache u a n) /\ adds (new_link st) (new_attr st) st (serialize_array st g cache u a n).
Proof.
  intros content st g cache u a n Hw Hg Hc. unfold serialize_array.
  destruct (has st (n :: g)) eqn:Hf; [split; [exact Hw|apply adds_refl]|].
  assert (Hnew : new_link st (n :: g)) by (unfold new_link, holds; rewrite Hf; discriminate).
  destruct cache.
  - destruct (assoc u (warrays st)) as [p|] eqn:Hu.
    + split; [apply wf_add_entry; assumption|apply adds_entry; exact Hnew].
    + split.
      * apply wf_remember_array.
        -- apply wf_add_entry; assumption.
        -- cbn [add_entry file entries]. rewrite lookup_cons_eq. rewrite <- Hc; reflexivity.
        -- intros b. cbn [add_entry warrays]. eapply fresh_array_path; eassumption.
      * apply (adds_trans _ _ _ (add_entry st (n :: g) (EData a))); [apply adds_entry; exact Hnew|]. apply adds_array. exact Hu.
  - split; [apply wf_add_entry; assumption|apply adds_entry; exact Hnew].
Qed.

(** The frame of single writes of objects *)
Definition good_writer (content : nat -> array) (w : wstate -> path -> string -> nat -> result wstate) : Prop :=
  forall st g n a st', wf content st -> exists_group st g -> w st g n a = Ok st' ->
    wf content st' /\ adds (new_link st) (new_attr st) st st'.

Lemma foldM_members : forall content w q l st st', good_writer content w -> wf content st -> exists_group st q ->
  foldM (fun s ia => w s q (index_name (fst ia)) (snd ia)) l st = Ok st' ->
  wf content st' /\ adds (new_link st) (new_attr st) st st'.
Proof.
  intros content w q l. induction l as [|x l IH]; intros st st' Hg Hw Hq Hf; cbn [foldM] in Hf.
  - injection Hf as <-. split; [exact Hw|apply adds_refl].
  - apply bind_ok in Hf. destruct Hf as [st1 [H1 H2]].
    destruct (Hg _ _ _ _ _ Hw Hq H1) as [W1 A1].
    destruct (IH st1 st' Hg W1 (adds_exists _ _ _ _ _ A1 Hq) H2) as [W2 A2].
    split; [exact W2|]. eapply adds_rebase; eassumption.
Qed.

Lemma serialize_sequence_wf : forall content w st g ap l n st', good_writer content w -> wf content st -> exists_group st g ->
  serialize_sequence w st g ap l n = Ok st' -> wf content st' /\ adds (new_link st) (new_attr st) st st'.
Proof.
  intros content w st g ap l n st' Hgw Hw Hg Hs. unfold serialize_sequence in Hs.
  assert (Hgen : forall st1 off, wf content st1 -> adds (new_link st) (new_attr st) st st1 ->
    (let q := resolve (file st1) (n :: g) in
     match l, lookup q (entries (file st1)) with
     | [], _ => Ok st1
     | _, Some EGroup => foldM (fun s ia => w s q (index_name (fst ia)) (snd ia)) (combine (seq off (List.length l)) l) st1
     | _, _ => Raise TypeError
     end) = Ok st' -> wf content st' /\ adds (new_link st) (new_attr st) st st').
  { intros st1 off W1 A1 Hf. cbv zeta in Hf. destruct l as [|b l']; [injection Hf as <-; split; assumption|].
    destruct (lookup (resolve (file st1) (n :: g)) (entries (file st1))) as [e|] eqn:He; [|discriminate].
    destruct e; try discriminate.
    assert (Hq : exists_group st1 (resolve (file st1) (n :: g))) by (right; apply holds_lookup; eexists; exact He).
    destruct (foldM_members content _ _ _ _ _ Hgw W1 Hq Hf) as [W2 A2].
    split; [exact W2|]. eapply adds_rebase; eassumption. }
  destruct (has st (n :: g)) eqn:Hf.
  - eapply Hgen; [exact Hw|apply adds_refl|exact Hs].
  - apply (Hgen (add_entry st (n :: g) EGroup) 0); [apply wf_add_entry; assumption| |exact Hs].
    apply adds_entry. unfold new_link, holds. rewrite Hf. discriminate.
Qed.

(** Attributes of the written group itself may be set *)
Definition own_attr (st : wstate) (g : path) (k : path) : Prop := tl k = g \/ new_attr st k.

Lemma write_field_wf : forall content w g st f st', good_writer content w -> wf content st -> exists_group st g ->
  (forall n u a, f = (n, VArray true u a) -> a = content u) ->
  write_field w g st f = Ok st' -> wf content st' /\ adds (new_link st) (own_attr st g) st st'.
Proof.
  intros content w g st [n v] st' Hgw Hw Hg Hc Hf. unfold write_field in Hf.
  assert (Hweak : forall s, adds (new_link st) (new_attr st) st s -> adds (new_link st) (own_attr st g) st s).
  { intros s Ha. eapply adds_weak; [exact Ha|auto|]. intros k Hk. right. exact Hk. }
  destruct v as [s|cache u a|a|ap l|].
  - assert (Hs : st' = set_attr st (n :: g) s).
    { unfold serialize_scalar in Hf. destruct s; try (injection Hf as <-; reflexivity).
      destruct (int64 z); [injection Hf as <-; reflexivity|discriminate]. }
    subst st'. split; [apply wf_set_attr; assumption|]. apply adds_attr. left. reflexivity.
  - injection Hf as <-. destruct (serialize_array_wf content st g cache u a n Hw Hg) as [W A]; [|split; [exact W|apply Hweak; exact A]].
    intros ->. eapply Hc. reflexivity.
  - destruct (Hgw _ _ _ _ _ Hw Hg Hf) as [W A]. split; [exact W|apply Hweak; exact A].
  - destruct (serialize_sequence_wf _ _ _ _ _ _ _ _ Hgw Hw Hg Hf) as [W A]. split; [exact W|apply Hweak; exact A].
  - injection Hf as <-. split; [exact Hw|apply adds_refl].
Qed.

Lemma write_fields_wf : forall content w g fs st st', good_writer content w -> wf content st -> exists_group st g ->
  arrays_ok content fs -> foldM (write_field w g) fs st = Ok st' ->
  wf content st' /\ adds (new_link st) (own_attr st g) st st'.
Proof.
  intros content w g fs. induction fs as [|f fs IH]; intros st st' Hgw Hw Hg Hc Hf; cbn [foldM] in Hf.
  - injection Hf as <-. split; [exact Hw|apply adds_refl].
  - apply bind_ok in Hf. destruct Hf as [st1 [H1 H2]].
    destruct (write_field_wf content w g st f st1 Hgw Hw Hg) as [W1 A1]; [|exact H1|].
    { intros n u a ->. eapply Hc. left. reflexivity. }
    destruct (IH st1 st' Hgw W1 (adds_exists _ _ _ _ _ A1 Hg)) as [W2 A2]; [|exact H2|].
    { intros n u a Hin. eapply Hc. right. exact Hin. }
    split; [exact W2|]. apply (adds_trans _ _ _ st1); [exact A1|]. eapply adds_weak; [exact A2| |].
    + intros k Hk Hx. apply Hk. eapply adds_holds; eassumption.
    + intros k [Hk|Hk]; [left; exact Hk|right]. intros Hx. apply Hk. eapply adds_exists; eassumption.
Qed.

Lemma write_obj_wf : forall content H r, (forall a o, nth_error H a = Some o -> arrays_ok content (fields o)) ->
  forall fuel, good_writer content (write_obj fuel H r).
Proof.
  intros content H r HH fuel. induction fuel as [|fuel IH]; intros st g n a st' Hw Hg Hx; [discriminate|].
  cbn [write_obj] in Hx. destruct (nth_error H a) as [o|] eqn:Ho; [|discriminate].
  destruct (negb (is_some (find_class (tag o) r))); [discriminate|].
  destruct (has st (n :: g)) eqn:Hf; [injection Hx as <-; split; [exact Hw|apply adds_refl]|].
  assert (Hnew : new_link st (n :: g)) by (unfold new_link, holds; rewrite Hf; discriminate).
  destruct (assoc a (wobjects st)) as [p|] eqn:Ha.
  - injection Hx as <-. split; [apply wf_add_entry; assumption|apply adds_entry; exact Hnew].
  - apply bind_ok in Hx. destruct Hx as [st1 [H1 H2]]. injection H2 as <-.
    set (st0 := remember_object (add_entry st (n :: g) EGroup) a (n :: g)) in *.
    assert (Hh : holds (add_entry st (n :: g) EGroup) (n :: g)) by (apply holds_entry; left; reflexivity).
    assert (W0 : wf content st0).
    { apply wf_remember_object; [apply wf_add_entry; assumption|exact Hh|].
      intros b. cbn [add_entry wobjects]. eapply fresh_object_path; eassumption. }
    assert (A0 : adds (new_link st) (new_attr st) st st0).
    { apply (adds_trans _ _ _ (add_entry st (n :: g) EGroup)); [apply adds_entry; exact Hnew|]. apply adds_object. exact Ha. }
    assert (G0 : exists_group st0 (n :: g)) by (right; exact Hh).
    destruct (write_fields_wf content _ _ _ _ _ IH W0 G0 (HH _ _ Ho) H1) as [W1 A1].
    assert (Hq : forall k, own_attr st0 (n :: g) k -> new_attr st k).
    { intros k [Hk|Hk].
      - unfold new_attr. rewrite Hk. intros [E|E]; [discriminate|]. unfold holds in E. congruence.
      - intros Hc. apply Hk. eapply adds_exists; eassumption. }
    split.
    + apply wf_set_attr; [exact W1|]. eapply adds_exists; eassumption.
    + apply (adds_trans _ _ _ st0); [exact A0|]. apply (adds_trans _ _ _ st1).
      * eapply adds_weak; [exact A1| |exact Hq]. intros k Hk Hc. apply Hk. eapply adds_holds; eassumption.
      * apply adds_attr. apply Hq. left. reflexivity.
Qed.
