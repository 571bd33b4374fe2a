(** Proofs about serialization: graphs equal up to addresses, and histories of writes. *)
From Coq Require Import List Arith Bool ZArith String Lia.
From Verif Require Import Base BaseLemmas Ser_Model Ser_Spec Ser_Proofs SerRead_Proofs.
Import ListNotations.
Open Scope nat_scope.

(** * Consequences of equality up to addresses *)
Lemma same_fields_field : forall b c n fs fs', same_fields b c fs fs' ->
  match field n fs, field n fs' with
  | Some v, Some v' => same_value b c v v'
  | None, None => True
  | _, _ => False
  end.
Proof.
  intros b c n fs fs' Hs. induction Hs as [|[m v] [m' v'] fs fs' [E Hv] Hs IH]; [exact I|].
  cbn [fst snd] in E, Hv. subst m'. cbn [field]. destruct (string_dec n m); [exact Hv|exact IH].
Qed.
Lemma Forall2_nth : forall A B (P : A -> B -> Prop) l l' i x, Forall2 P l l' -> nth_error l i = Some x -> exists y, nth_error l' i = Some y /\ P x y.
Proof.
  intros A B P l l' i x Hf. revert i. induction Hf as [|a b l l' Hab Hf IH]; intros i Hx; destruct i as [|i]; cbn [nth_error] in *; try discriminate.
  - injection Hx as <-. exists b. split; [reflexivity|exact Hab].
  - apply IH. exact Hx.
Qed.
Lemma take_same : forall b c o o' s a, same_objects b c o o' -> take o s = Some a -> exists a', take o' s = Some a' /\ In (a, a') b.
Proof.
  intros b c o o' s a [_ Hs] Ht. destruct s as [n|n i]; unfold take in *; pose proof (same_fields_field _ _ n _ _ Hs) as Hf;
  destruct (field n (fields o)) as [v|]; try discriminate; destruct (field n (fields o')) as [v'|]; try contradiction.
  - destruct v; try discriminate. injection Ht as <-. inversion Hf; subst. eexists. split; [reflexivity|assumption].
  - destruct v; try discriminate. inversion Hf; subst.
    match goal with HF : Forall2 _ _ _ |- _ => destruct (Forall2_nth _ _ _ _ _ _ _ HF Ht) as [y [E1 E2]] end. exists y. split; assumption.
Qed.
Lemma follow_same : forall H H' b c, (forall a a', In (a, a') b -> exists x x', nth_error H a = Some x /\ nth_error H' a' = Some x' /\ same_objects b c x x') ->
  forall l a a' z, In (a, a') b -> follow H a l = Some z -> exists z', follow H' a' l = Some z' /\ In (z, z') b.
Proof.
  intros H H' b c Hb l. induction l as [|s l IH]; intros a a' z Hin Hf; cbn [follow] in *.
  - injection Hf as <-. exists a'. split; [reflexivity|exact Hin].
  - destruct (Hb _ _ Hin) as [x [x' [E1 [E2 Hs]]]]. rewrite E1 in Hf. rewrite E2.
    destruct (take x s) as [y|] eqn:Ht; [|discriminate]. destruct (take_same _ _ _ _ _ _ Hs Ht) as [y' [E3 Hy]]. rewrite E3.
    apply (IH y y'); assumption.
Qed.
Lemma reach_same : forall H H' o o' b c, (forall a a', In (a, a') b -> exists x x', nth_error H a = Some x /\ nth_error H' a' = Some x' /\ same_objects b c x x') ->
  same_objects b c o o' -> forall s l z, reach H o s l = Some z -> exists z', reach H' o' s l = Some z' /\ In (z, z') b.
Proof.
  intros H H' o o' b c Hb Ho s l z Hr. unfold reach in *. destruct (take o s) as [y|] eqn:Ht; [|discriminate].
  destruct (take_same _ _ _ _ _ _ Ho Ht) as [y' [E Hy]]. rewrite E. eapply follow_same; eassumption.
Qed.
Lemma same_scalar_of : forall b c o o' n, same_objects b c o o' -> scalar_of o' n = scalar_of o n.
Proof.
  intros b c o o' n [_ Hs]. unfold scalar_of. pose proof (same_fields_field _ _ n _ _ Hs) as Hf.
  destruct (field n (fields o)) as [v|], (field n (fields o')) as [v'|]; try contradiction; [|reflexivity].
  inversion Hf; reflexivity.
Qed.
Lemma same_array_of : forall b c o o' n, same_objects b c o o' -> array_of o' n = array_of o n.
Proof.
  intros b c o o' n [_ Hs]. unfold array_of. pose proof (same_fields_field _ _ n _ _ Hs) as Hf.
  destruct (field n (fields o)) as [v|], (field n (fields o')) as [v'|]; try contradiction; [|reflexivity].
  inversion Hf; reflexivity.
Qed.

(** * Histories of writes *)
Section Histories.
Variables (content : nat -> array) (H : heap) (r : registry) (fuel : nat).
Hypothesis HH : forall a o, nth_error H a = Some o -> arrays_ok content (fields o).
Let w := write_obj fuel H r.

Lemma w_good : good_writer content w.
Proof. apply write_obj_wf. exact HH. Qed.

Lemma scalar_attr : forall st g s n st', serialize_scalar st g s n = Ok st' -> st' = set_attr st (n :: g) s.
Proof.
  intros st g s n st' Hs. unfold serialize_scalar in Hs. destruct s; try (injection Hs as <-; reflexivity).
  destruct (int64 z); [injection Hs as <-; reflexivity|discriminate].
Qed.

(** One write changes no other attribute of the group *)
Lemma write_field_attr : forall g st m v st' n, wf content st -> exists_group st g ->
  (forall k u a, (m, v) = (k, VArray true u a) -> a = content u) -> write_field w g st (m, v) = Ok st' ->
  lookup (n :: g) (attrs (file st')) =
  match v with VScalar s => if string_dec n m then Some s else lookup (n :: g) (attrs (file st)) | _ => lookup (n :: g) (attrs (file st)) end.
Proof.
  intros g st m v st' n Hw Hg Hc Hf.
  assert (Hkeep : adds (new_link st) (new_attr st) st st' -> lookup (n :: g) (attrs (file st')) = lookup (n :: g) (attrs (file st))).
  { intros Ha. apply (adds_lookup_a _ _ _ _ _ Ha). intros Hn. apply Hn. exact Hg. }
  unfold write_field in Hf. destruct v as [s|cache u a|a|ap l|].
  - apply scalar_attr in Hf. subst st'. cbn [set_attr file attrs]. destruct (string_dec n m) as [->|Hne].
    + apply lookup_cons_eq.
    + apply lookup_cons_ne. congruence.
  - injection Hf as <-. apply Hkeep. apply (serialize_array_wf content); [exact Hw|exact Hg|]. intros ->. eapply Hc. reflexivity.
  - apply Hkeep. eapply w_good; eassumption.
  - apply Hkeep. eapply serialize_sequence_wf; [exact w_good|exact Hw|exact Hg|exact Hf].
  - injection Hf as <-. reflexivity.
Qed.

Lemma history_attr : forall g hist st st' n, wf content st -> exists_group st g -> arrays_ok content hist ->
  foldM (write_field w g) hist st = Ok st' ->
  lookup (n :: g) (attrs (file st')) = match last_scalar n hist with Some s => Some s | None => lookup (n :: g) (attrs (file st)) end.
Proof.
  intros g hist. induction hist as [|[m v] hist IH]; intros st st' n Hw Hg Hc Hf; cbn [foldM] in Hf.
  - injection Hf as <-. reflexivity.
  - apply bind_ok in Hf. destruct Hf as [st1 [H1 H2]].
    assert (Hc1 : forall k u a, (m, v) = (k, VArray true u a) -> a = content u) by (intros k u a E; eapply Hc; left; exact E).
    destruct (write_field_wf content w g st (m, v) st1 w_good Hw Hg Hc1 H1) as [W1 A1].
    rewrite (IH st1 st' n W1 (adds_exists _ _ _ _ _ A1 Hg)); [|intros k u a Hin; eapply Hc; right; exact Hin|exact H2].
    cbn [last_scalar]. destruct (last_scalar n hist); [reflexivity|].
    rewrite (write_field_attr g st m v st1 n Hw Hg Hc1 H1). destruct v; destruct (string_dec n m); reflexivity.
Qed.

(** Links stay *)
Lemma history_keeps : forall g hist st st' k e, wf content st -> exists_group st g -> arrays_ok content hist ->
  foldM (write_field w g) hist st = Ok st' -> lookup k (entries (file st)) = Some e -> lookup k (entries (file st')) = Some e.
Proof.
  intros g hist st st' k e Hw Hg Hc Hf Hk.
  destruct (write_fields_wf content w g hist st st' w_good Hw Hg Hc Hf) as [_ A].
  rewrite (adds_lookup_e _ _ _ _ _ A); [exact Hk|]. intros Hn. apply Hn. apply holds_lookup. exists e. exact Hk.
Qed.

(** What a link to an array leads to *)
Definition array_at (st : wstate) (k : path) (a : array) : Prop :=
  lookup k (entries (file st)) = Some (EData a) \/
  exists p, lookup k (entries (file st)) = Some (ESoft p) /\ lookup p (entries (file st)) = Some (EData a).


(** Writing into other groups adds no link to the base group *)
Definition deep (n : string) (g k : path) : Prop := k = n :: g \/ 2 <= List.length k.

Lemma resolve_not_nil : forall st n g, wf content st ->
  (forall k p, lookup k (entries (file st)) = Some (ESoft p) -> p <> []) -> resolve (file st) (n :: g) <> [].
Proof.
  intros st n g Hw Hs. unfold resolve. destruct (lookup (n :: g) (entries (file st))) as [e|] eqn:E; [|discriminate].
  destruct e; try discriminate. eapply Hs. exact E.
Qed.

Definition soft_ok (st : wstate) : Prop := forall k p, lookup k (entries (file st)) = Some (ESoft p) -> p <> [].
Lemma soft_add : forall st k e, soft_ok st -> (forall p, e = ESoft p -> p <> []) -> soft_ok (add_entry st k e).
Proof.
  intros st k e Hs He k' p Hk. cbn [add_entry file entries lookup] in Hk. destruct (path_eqb k' k).
  - injection Hk as ->. apply He. reflexivity.
  - eapply Hs. exact Hk.
Qed.
Lemma wf_soft_obj : forall st a p, wf content st -> assoc a (wobjects st) = Some p -> p <> [].
Proof. intros st a p Hw Ha ->. apply (wf_nil _ _ Hw). eapply wf_obj; eassumption. Qed.
Lemma wf_soft_arr : forall st a p, wf content st -> assoc a (warrays st) = Some p -> p <> [].
Proof. intros st a p Hw Ha ->. apply (wf_nil _ _ Hw). apply holds_lookup. eexists. eapply wf_arr; eassumption. Qed.

Definition deep_writer (x : wstate -> path -> string -> nat -> result wstate) : Prop :=
  forall st g n a st', wf content st -> exists_group st g -> soft_ok st -> x st g n a = Ok st' ->
    soft_ok st' /\ adds (deep n g) (fun _ => True) st st'.

Lemma deep_members : forall x q l st st', good_writer content x -> deep_writer x -> q <> [] -> wf content st -> exists_group st q -> soft_ok st ->
  foldM (fun s ia => x s q (index_name (fst ia)) (snd ia)) l st = Ok st' ->
  soft_ok st' /\ adds (fun k => 2 <= List.length k) (fun _ => True) st st'.
Proof.
  intros x q l. induction l as [|i l IH]; intros st st' Hgw Hx Hq Hw Hg Hs Hf; cbn [foldM] in Hf.
  - injection Hf as <-. split; [exact Hs|apply adds_refl].
  - apply bind_ok in Hf. destruct Hf as [st1 [H1 H2]].
    destruct (Hgw _ _ _ _ _ Hw Hg H1) as [W1 A1]. destruct (Hx _ _ _ _ _ Hw Hg Hs H1) as [S1 D1].
    destruct (IH st1 st' Hgw Hx Hq W1 (adds_exists _ _ _ _ _ A1 Hg) S1 H2) as [S2 D2].
    split; [exact S2|]. apply (adds_trans _ _ _ st1); [|exact D2]. eapply adds_weak; [exact D1| |auto].
    intros k [->|Hk]; [|exact Hk]. destruct q; [congruence|]. cbn [List.length]. lia.
Qed.
Lemma deep_sequence : forall x st g ap l n st', good_writer content x -> deep_writer x -> wf content st -> exists_group st g -> soft_ok st ->
  serialize_sequence x st g ap l n = Ok st' -> soft_ok st' /\ adds (deep n g) (fun _ => True) st st'.
Proof.
  intros x st g ap l n st' Hgw Hx Hw Hg Hs Hf. unfold serialize_sequence in Hf.
  assert (Hgen : forall st1 off, wf content st1 -> soft_ok st1 -> adds (deep n g) (fun _ => True) st st1 ->
    (let q := resolve (file st1) (n :: g) in
     match l, lookup q (entries (file st1)) with
     | [], _ => Ok st1
     | _, Some EGroup => foldM (fun s ia => x s q (index_name (fst ia)) (snd ia)) (combine (seq off (List.length l)) l) st1
     | _, _ => Raise TypeError
     end) = Ok st' -> soft_ok st' /\ adds (deep n g) (fun _ => True) st st').
  { intros st1 off W1 S1 A1 Hf'. cbv zeta in Hf'. destruct l as [|b l']; [injection Hf' as <-; split; assumption|].
    destruct (lookup (resolve (file st1) (n :: g)) (entries (file st1))) as [e|] eqn:He; [|discriminate].
    destruct e; try discriminate.
    assert (Hq : exists_group st1 (resolve (file st1) (n :: g))) by (right; apply holds_lookup; eexists; exact He).
    destruct (deep_members x _ _ _ _ Hgw Hx (resolve_not_nil _ _ _ W1 S1) W1 Hq S1 Hf') as [S2 D2].
    split; [exact S2|]. apply (adds_trans _ _ _ st1); [exact A1|]. eapply adds_weak; [exact D2| |auto]. intros k Hk. right. exact Hk. }
  destruct (has st (n :: g)) eqn:Hh.
  - eapply Hgen; [exact Hw|exact Hs|apply adds_refl|exact Hf].
  - apply (Hgen (add_entry st (n :: g) EGroup) 0); [apply wf_add_entry; assumption|apply soft_add; [exact Hs|discriminate]| |exact Hf].
    apply adds_entry. left. reflexivity.
Qed.
Lemma deep_array : forall st g cache u a n, wf content st -> soft_ok st ->
  soft_ok (serialize_array st g cache u a n) /\ adds (deep n g) (fun _ => True) st (serialize_array st g cache u a n).
Proof.
  intros st g cache u a n Hw Hs. unfold serialize_array. destruct (has st (n :: g)); [split; [exact Hs|apply adds_refl]|].
  assert (Hd : soft_ok (add_entry st (n :: g) (EData a)) /\ adds (deep n g) (fun _ => True) st (add_entry st (n :: g) (EData a))).
  { split; [apply soft_add; [exact Hs|discriminate]|apply adds_entry; left; reflexivity]. }
  destruct cache; [|exact Hd]. destruct (assoc u (warrays st)) as [p|] eqn:E.
  - split; [apply soft_add; [exact Hs|]|apply adds_entry; left; reflexivity]. intros p' Ep. injection Ep as <-. eapply wf_soft_arr; eassumption.
  - split; [exact (proj1 Hd)|]. apply (adds_trans _ _ _ (add_entry st (n :: g) (EData a))); [exact (proj2 Hd)|apply adds_array; exact E].
Qed.
Lemma deep_field : forall x g st n v st', good_writer content x -> deep_writer x -> wf content st -> exists_group st g -> soft_ok st ->
  write_field x g st (n, v) = Ok st' -> soft_ok st' /\ adds (deep n g) (fun _ => True) st st'.
Proof.
  intros x g st n v st' Hgw Hx Hw Hg Hs Hf. unfold write_field in Hf. destruct v as [s|cache u a|a|ap l|].
  - apply scalar_attr in Hf. subst st'. split; [exact Hs|apply adds_attr; exact I].
  - injection Hf as <-. apply deep_array; assumption.
  - eapply Hx; eassumption.
  - eapply deep_sequence; eassumption.
  - injection Hf as <-. split; [exact Hs|apply adds_refl].
Qed.
Lemma deep_fields : forall x g fs st st', good_writer content x -> deep_writer x -> g <> [] -> wf content st -> exists_group st g -> soft_ok st ->
  arrays_ok content fs -> foldM (write_field x g) fs st = Ok st' -> soft_ok st' /\ adds (fun k => 2 <= List.length k) (fun _ => True) st st'.
Proof.
  intros x g fs. induction fs as [|[n v] fs IH]; intros st st' Hgw Hx Hn Hw Hg Hs Hc Hf; cbn [foldM] in Hf.
  - injection Hf as <-. split; [exact Hs|apply adds_refl].
  - apply bind_ok in Hf. destruct Hf as [st1 [H1 H2]].
    destruct (write_field_wf content x g st (n, v) st1 Hgw Hw Hg) as [W1 A1]; [intros k u a E; eapply Hc; left; exact E|exact H1|].
    destruct (deep_field x g st n v st1 Hgw Hx Hw Hg Hs H1) as [S1 D1].
    destruct (IH st1 st' Hgw Hx Hn W1 (adds_exists _ _ _ _ _ A1 Hg) S1) as [S2 D2]; [intros k u a Hin; eapply Hc; right; exact Hin|exact H2|].
    split; [exact S2|]. apply (adds_trans _ _ _ st1); [|exact D2]. eapply adds_weak; [exact D1| |auto].
    intros k [->|Hk]; [|exact Hk]. destruct g; [congruence|]. cbn [List.length]. lia.
Qed.
Lemma deep_obj : forall f, deep_writer (write_obj f H r).
Proof.
  intros f. induction f as [|f IH]; intros st g n a st' Hw Hg Hs Hx; [discriminate|].
  cbn [write_obj] in Hx. destruct (nth_error H a) as [o|] eqn:Ho; [|discriminate].
  destruct (negb (is_some (find_class (tag o) r))); [discriminate|].
  destruct (has st (n :: g)) eqn:Hf; [injection Hx as <-; split; [exact Hs|apply adds_refl]|].
  destruct (assoc a (wobjects st)) as [p|] eqn:Ha.
  - injection Hx as <-. split; [apply soft_add; [exact Hs|]|apply adds_entry; left; reflexivity].
    intros p' E. injection E as <-. eapply wf_soft_obj; eassumption.
  - apply bind_ok in Hx. destruct Hx as [st1 [H1 H2]]. injection H2 as <-.
    set (st0 := remember_object (add_entry st (n :: g) EGroup) a (n :: g)) in *.
    assert (Hh : holds (add_entry st (n :: g) EGroup) (n :: g)) by (apply holds_entry; left; reflexivity).
    assert (W0 : wf content st0).
    { apply wf_remember_object; [apply wf_add_entry; assumption|exact Hh|].
      intros b. cbn [add_entry wobjects]. eapply fresh_object_path; eassumption. }
    assert (S0 : soft_ok st0) by (apply soft_add; [exact Hs|discriminate]).
    destruct (deep_fields (write_obj f H r) (n :: g) (fields o) st0 st1) as [S1 D1].
    { apply write_obj_wf. exact HH. }
    { exact IH. }
    { discriminate. }
    { exact W0. }
    { right. exact Hh. }
    { exact S0. }
    { eapply HH. exact Ho. }
    { exact H1. }
    split; [exact S1|]. apply (adds_trans _ _ _ st0).
    + apply (adds_trans _ _ _ (add_entry st (n :: g) EGroup)); [apply adds_entry; left; reflexivity|apply adds_object; exact Ha].
    + apply (adds_trans _ _ _ st1); [|apply adds_attr; exact I]. eapply adds_weak; [exact D1| |auto]. intros k Hk. right. exact Hk.
Qed.

Lemma root_other : forall st m v st' n, wf content st -> soft_ok st -> write_field w [] st (m, v) = Ok st' -> n <> m ->
  has st' [n] = has st [n].
Proof.
  intros st m v st' n Hw Hs Hf Hn. destruct (deep_field w [] st m v st' w_good (deep_obj fuel) Hw (or_introl eq_refl) Hs Hf) as [_ A].
  unfold has. rewrite (adds_lookup_e _ _ _ _ _ A); [reflexivity|]. intros [E|E]; [congruence|cbn [List.length] in E; lia].
Qed.

(** The first array written under a name stays; names without links have none *)
Lemma history_array : forall hist st st' n, wf content st -> soft_ok st -> arrays_ok content hist ->
  foldM (write_field w []) hist st = Ok st' -> has st [n] = false ->
  match first_link n hist with
  | None => has st' [n] = false
  | Some (VArray _ _ a) => array_at st' [n] a
  | Some _ => True
  end.
Proof.
  intros hist. induction hist as [|[m v] hist IH]; intros st st' n Hw Hs Hc Hf Hn; cbn [foldM] in Hf.
  - injection Hf as <-. exact Hn.
  - apply bind_ok in Hf. destruct Hf as [st1 [H1 H2]].
    assert (Hc1 : forall k u a, (m, v) = (k, VArray true u a) -> a = content u) by (intros k u a E; eapply Hc; left; exact E).
    assert (Hc2 : arrays_ok content hist) by (intros k u a Hin; eapply Hc; right; exact Hin).
    destruct (write_field_wf content w [] st (m, v) st1 w_good Hw (or_introl eq_refl) Hc1 H1) as [W1 A1].
    destruct (deep_field w [] st m v st1 w_good (deep_obj fuel) Hw (or_introl eq_refl) Hs H1) as [S1 D1].
    cbn [first_link]. destruct (string_dec n m) as [->|Hne].
    2: { apply (IH st1 st' n W1 S1 Hc2 H2). rewrite (root_other st m v st1 n Hw Hs H1 Hne). exact Hn. }
    destruct v as [s|cache u a|a|ap l|]; try exact I.
    + apply (IH st1 st' m W1 S1 Hc2 H2). unfold write_field in H1. apply scalar_attr in H1. subst st1. exact Hn.
    + assert (Hat : array_at st1 [m] a).
      { unfold write_field in H1. injection H1 as <-. unfold serialize_array. rewrite Hn.
        destruct cache; [|left; cbn [add_entry file entries]; apply lookup_cons_eq].
        destruct (assoc u (warrays st)) as [p|] eqn:E.
        - right. exists p. cbn [add_entry file entries]. split; [apply lookup_cons_eq|]. apply (wf_arr _ _ Hw) in E.
          rewrite lookup_cons_ne; [rewrite E; f_equal; f_equal; symmetry; eapply Hc1; reflexivity|]. intros ->. apply not_holds in Hn. congruence.
        - left. cbn [remember_array add_entry file entries]. apply lookup_cons_eq. }
      destruct Hat as [Hat|[p [Ha1 Ha2]]].
      * left. eapply history_keeps; [exact W1|left; reflexivity|exact Hc2|exact H2|exact Hat].
      * right. exists p. split; (eapply history_keeps; [exact W1|left; reflexivity|exact Hc2|exact H2|assumption]).
    + apply (IH st1 st' m W1 S1 Hc2 H2). injection H1 as <-. exact Hn.
Qed.
End Histories.

Lemma soft_new_file : forall v t, soft_ok (new_file v t).
Proof. intros v t k p Hk. cbn [new_file file entries lookup] in Hk. destruct (path_eqb k ["arrays"%string]); discriminate. Qed.
