(** Proofs about serialization: reading inverts writing for every acyclic object graph. *)
From Coq Require Import List Arith Bool ZArith String Lia Decimal DecimalString DecimalNat.
From Verif Require Import Base BaseLemmas Ser_Model Ser_Spec Ser_Proofs.
Import ListNotations.
Open Scope nat_scope.

(** * Paths *)
Definition under (p k : path) : Prop := exists q, k = q ++ p.
Lemma under_refl : forall p, under p p.
Proof. intros p. exists []. reflexivity. Qed.
Lemma under_cons : forall p m k, under p k -> under p (m :: k).
Proof. intros p m k [q ->]. exists (m :: q). reflexivity. Qed.
Lemma under_sub : forall n p k, under (n :: p) k -> under p k.
Proof. intros n p k [q ->]. exists (q ++ [n]). rewrite <- app_assoc. reflexivity. Qed.
Lemma under_length : forall p k, under p k -> List.length p <= List.length k.
Proof. intros p k [q ->]. rewrite app_length. lia. Qed.
Lemma under_same_head : forall n m p k, under (n :: p) k -> under (m :: p) k -> n = m.
Proof.
  intros n m p k [q ->] [q' E].
  replace (q ++ n :: p) with ((q ++ [n]) ++ p) in E by (rewrite <- app_assoc; reflexivity).
  replace (q' ++ m :: p) with ((q' ++ [m]) ++ p) in E by (rewrite <- app_assoc; reflexivity).
  apply app_inv_tail in E. apply app_inj_tail in E. apply (proj2 E).
Qed.
Lemma not_under_self : forall n p, ~ under (n :: p) p.
Proof. intros n p Hu. apply under_length in Hu. cbn [List.length] in Hu. lia. Qed.

Lemma pad_value : forall n d, Nat.of_uint (pad n d) = Nat.of_uint d.
Proof. induction n as [|n IH]; intros d; [reflexivity|]. cbn [pad]. transitivity (Nat.of_uint (pad n d)); [reflexivity|apply IH]. Qed.
Lemma index_name_inj : forall i j, index_name i = index_name j -> i = j.
Proof.
  intros i j E. unfold index_name in E. apply (f_equal NilEmpty.uint_of_string) in E.
  rewrite !NilEmpty.usu in E. injection E as E. apply (f_equal Nat.of_uint) in E.
  rewrite !pad_value, !Unsigned.of_to in E. exact E.
Qed.

(** * Equal parts of files *)
Record agree (p : path) (S T : store) : Prop := {
  ag_e : forall k, under p k -> lookup k (entries S) = lookup k (entries T);
  ag_a : forall m x, under p x -> lookup (m :: x) (attrs S) = lookup (m :: x) (attrs T);
  ag_c : forall x, under p x -> children S x = children T x
}.
Lemma agree_refl : forall p S, agree p S S.
Proof. intros p S. split; reflexivity. Qed.
Lemma agree_trans : forall p A B C, agree p A B -> agree p B C -> agree p A C.
Proof.
  intros p A B C [E1 A1 C1] [E2 A2 C2]. split; intros.
  - rewrite E1, E2 by assumption. reflexivity.
  - rewrite A1, A2 by assumption. reflexivity.
  - rewrite C1, C2 by assumption. reflexivity.
Qed.
Lemma agree_sub : forall n p A B, agree p A B -> agree (n :: p) A B.
Proof. intros n p A B [E1 A1 C1]. split; intros; [apply E1|apply A1|apply C1]; eapply under_sub; eassumption. Qed.

Definition direct (g : path) (x : path * entry) : bool := match fst x with _ :: q => path_eqb q g | [] => false end.
Lemma children_eq : forall s g, children s g = List.length (filter (direct g) (entries s)).
Proof. reflexivity. Qed.
Lemma direct_true : forall g x, direct g x = true -> exists m, fst x = m :: g.
Proof. intros g [k e]. unfold direct. cbn [fst]. destruct k as [|m q]; [discriminate|]. intros E. apply path_eqb_true in E. subst q. exists m. reflexivity. Qed.
Lemma filter_none : forall A (f : A -> bool) l, (forall x, In x l -> f x = false) -> filter f l = [].
Proof.
  intros A f l. induction l as [|x l IH]; intros Hn; [reflexivity|]. cbn [filter]. rewrite Hn by (left; reflexivity).
  apply IH. intros y Hy. apply Hn. right. exact Hy.
Qed.
Lemma adds_children : forall P Q st st' g, adds P Q st st' -> (forall m, ~ P (m :: g)) -> children (file st') g = children (file st) g.
Proof.
  intros P Q st st' g [[ne [He1 He2]] _ _ _] Hn. rewrite !children_eq, He1, filter_app.
  rewrite (filter_none _ _ ne); [reflexivity|]. intros x Hx. destruct (direct g x) eqn:E; [|reflexivity].
  apply direct_true in E. destruct E as [m E]. rewrite Forall_forall in He2. apply He2 in Hx. rewrite E in Hx.
  exfalso. exact (Hn m Hx).
Qed.
Lemma adds_agree : forall P Q st st' p, adds P Q st st' -> (forall k, under p k -> ~ P k) ->
  (forall m x, under p x -> ~ Q (m :: x)) -> agree p (file st') (file st).
Proof.
  intros P Q st st' p Ha HP HQ. split; intros.
  - eapply adds_lookup_e; [exact Ha|]. apply HP. assumption.
  - eapply adds_lookup_a; [exact Ha|]. apply HQ. assumption.
  - eapply adds_children; [exact Ha|]. intros m. apply HP. apply under_cons. assumption.
Qed.

(** Nothing exists below a name that is not in use *)
Lemma fresh_below : forall content st p, wf content st -> p <> [] -> has st p = false ->
  forall k, under p k -> ~ holds st k.
Proof.
  intros content st p Hw Hp Hf k [q ->]. induction q as [|m q IH].
  - unfold holds. cbn. congruence.
  - intros Hh. apply (wf_entry _ _ Hw) in Hh. destruct Hh as [E|Hh].
    + apply app_eq_nil in E. apply Hp. apply (proj2 E).
    + exact (IH Hh).
Qed.
Lemma fresh_attr : forall content st p, wf content st -> p <> [] -> has st p = false ->
  forall m x, under p x -> lookup (m :: x) (attrs (file st)) = None.
Proof.
  intros content st p Hw Hp Hf m x Hu. destruct (lookup (m :: x) (attrs (file st))) as [s|] eqn:E; [|reflexivity].
  exfalso. apply (wf_attr _ _ Hw) in E. destruct E as [->|E].
  - destruct Hu as [q E]. symmetry in E. apply app_eq_nil in E. apply Hp. apply (proj2 E).
  - exact (fresh_below _ _ _ Hw Hp Hf _ Hu E).
Qed.
Lemma fresh_children : forall content st n g, wf content st -> has st (n :: g) = false -> children (file st) (n :: g) = 0.
Proof.
  intros content st n g Hw Hf. rewrite children_eq, filter_none; [reflexivity|].
  intros x Hx. destruct (direct (n :: g) x) eqn:E; [|reflexivity]. exfalso.
  apply direct_true in E. destruct E as [m E].
  apply (fresh_below content st (n :: g) Hw) with (m :: n :: g); [discriminate|exact Hf|apply under_cons, under_refl|].
  unfold holds, has. rewrite <- E. clear - Hx. induction (entries (file st)) as [|[k e] l IH]; [destruct Hx|].
  destruct Hx as [<-|Hx]; cbn [lookup fst].
  - rewrite path_eqb_refl. reflexivity.
  - destruct (path_eqb (fst x) k); [reflexivity|apply IH; exact Hx].
Qed.

Lemma Forall2_impl : forall A B (P Q : A -> B -> Prop) l l', (forall x y, P x y -> Q x y) -> Forall2 P l l' -> Forall2 Q l l'.
Proof. intros A B P Q l l' Hi Hf. induction Hf; constructor; auto. Qed.
Lemma same_value_mono : forall b g b' g' v v', incl b b' -> incl g g' -> same_value b g v v' -> same_value b' g' v v'.
Proof.
  intros b g b' g' v v' Hb Hg Hs. destruct Hs; constructor; auto.
  eapply Forall2_impl; [|eassumption]. intros x y Hxy. apply Hb. exact Hxy.
Qed.
Lemma same_fields_mono : forall b g b' g' v v', incl b b' -> incl g g' -> same_fields b g v v' -> same_fields b' g' v v'.
Proof.
  intros b g b' g' v v' Hb Hg Hs. eapply Forall2_impl; [|exact Hs]. intros x y [E Hxy]. split; [exact E|].
  eapply same_value_mono; eassumption.
Qed.

Section Reading.
Variables (r : registry) (H : heap) (content : nat -> array) (rank : nat -> nat).
Hypothesis HW : well_formed r H content rank.

(** Correspondence of a writer and a reader that has read the same items.  [open]: objects being written. *)
Record inv (st : wstate) (rs : rstate) (b g : list (nat * nat)) (open : list nat) : Prop := {
  i_one : one_to_one b;
  i_rel : forall a a', In (a, a') b -> exists o o', nth_error H a = Some o /\ nth_error (loaded rs) a' = Some o' /\ same_objects b g o o';
  i_dom : forall a a', In (a, a') b -> assoc a (wobjects st) <> None /\ ~ In a open;
  i_cache : forall a p, assoc a (wobjects st) = Some p -> ~ In a open -> exists a', lookup p (robjects rs) = Some a' /\ In (a, a') b;
  g_one : one_to_one g;
  g_dom : forall u u', In (u, u') g -> assoc u (warrays st) <> None /\ u' < next_array rs;
  g_cache : forall u p, assoc u (warrays st) = Some p -> exists u', lookup p (rarrays rs) = Some (u', content u) /\ In (u, u') g
}.


(** ** Objects *)
Definition obj_spec (a : nat) : Prop := forall fuel g n st open,
  rank a < fuel -> (forall b, In b open -> rank a < rank b) -> wf content st -> exists_group st g -> has st (n :: g) = false ->
  nth_error H a <> None ->
  exists st', write_obj fuel H r st g n a = Ok st' /\
    adds (under (n :: g)) (fun k => under (n :: g) (tl k)) st st' /\
    children (file st') g = S (children (file st) g) /\ holds st' (n :: g) /\ wf content st' /\
    forall s rs b c fuel2 e, S (rank a) < fuel2 -> agree (n :: g) s (file st') -> inv st rs b c open -> instance_of r H e a ->
      exists rs' b' c' a', read_obj fuel2 r s e rs g n = Ok (rs', Some a') /\
        incl b b' /\ incl c c' /\ inv st' rs' b' c' open /\ In (a, a') b'.

Lemma arrays_ok_heap : forall a o, nth_error H a = Some o -> arrays_ok content (fields o).
Proof.
  intros a o Ho. destruct (HW _ _ Ho) as [c [_ [_ Hf]]]. intros n u x Hin.
  clear -Hf Hin. induction Hf as [|f k fs ks Hfk Hf IH]; [destruct Hin|].
  destruct Hin as [->|Hin]; [|apply IH; exact Hin]. destruct Hfk as [_ [Hfit _]]. cbn [snd] in Hfit.
  inversion Hfit; subst; reflexivity.
Qed.
Lemma writer_good : forall fuel, good_writer content (write_obj fuel H r).
Proof. apply write_obj_wf. exact arrays_ok_heap. Qed.

(** ** Members of sequences *)
Definition in_members (q : path) (i : nat) (k : path) : Prop := exists j, i <= j /\ under (index_name j :: q) k.

Lemma members_spec : forall fuel q open l i st, 
  (forall x, In x l -> obj_spec x /\ rank x < fuel /\ (forall y, In y open -> rank x < rank y) /\ nth_error H x <> None) ->
  wf content st -> exists_group st q -> (forall j, i <= j -> has st (index_name j :: q) = false) ->
  exists st', foldM (fun s ia => write_obj fuel H r s q (index_name (fst ia)) (snd ia)) (combine (seq i (List.length l)) l) st = Ok st' /\
    adds (in_members q i) (fun k => in_members q i (tl k)) st st' /\
    children (file st') q = children (file st) q + List.length l /\ wf content st' /\
    forall s rs b c fuel2 e, (forall x, In x l -> S (rank x) < fuel2 /\ instance_of r H e x) ->
      (forall j, i <= j < i + List.length l -> agree (index_name j :: q) s (file st')) -> inv st rs b c open ->
      exists rs' b' c' l', read_members (fun rs g n => read_obj fuel2 r s e rs g n) q (seq i (List.length l)) rs = Ok (rs', l') /\
        incl b b' /\ incl c c' /\ inv st' rs' b' c' open /\ Forall2 (fun a a' => In (a, a') b') l l'.
Proof.
  intros fuel q open l. induction l as [|a l IH]; intros i st Hl Hw Hq Hfr.
  - exists st. cbn [List.length seq combine foldM]. split; [reflexivity|]. split; [apply adds_refl|]. split; [lia|]. split; [exact Hw|].
    intros s rs b c fuel2 e _ _ Hi. exists rs, b, c, []. cbn [read_members]. 
    split; [reflexivity|]. split; [apply incl_refl|]. split; [apply incl_refl|]. split; [exact Hi|constructor].
  - destruct (Hl a (or_introl eq_refl)) as [Ha [Hra [Hop Hna]]].
    destruct (Ha fuel q (index_name i) st open Hra Hop Hw Hq (Hfr i (le_n i)) Hna) as [st1 [E1 [A1 [C1 [Hh1 [W1 R1]]]]]].
    destruct (IH (S i) st1) as [st2 [E2 [A2 [C2 [W2 R2]]]]].
    { intros x Hx. apply Hl. right. exact Hx. }
    { exact W1. }
    { eapply adds_exists; eassumption. }
    { intros j Hj. unfold has. rewrite (adds_lookup_e _ _ _ _ _ A1); [apply Hfr; lia|].
      intros Hu. assert (index_name i = index_name j) by (eapply under_same_head; [exact Hu|apply under_refl]).
      apply index_name_inj in H0. lia. }
    exists st2. cbn [List.length seq combine foldM fst snd]. rewrite E1. cbn [bind]. split; [exact E2|].
    split; [|split; [|split; [exact W2|]]].
    + apply (adds_trans _ _ _ st1).
      * eapply adds_weak; [exact A1| |]; intros k Hk; exists i; auto.
      * eapply adds_weak; [exact A2| |]; intros k [j [Hj Hk]]; exists j; split; auto; lia.
    + rewrite C2, C1. lia.
    + intros s rs b c fuel2 e He Hag Hi. destruct (He a (or_introl eq_refl)) as [Hf2 Hin].
      destruct (R1 s rs b c fuel2 e Hf2) as [rs1 [b1 [c1 [a' [Er1 [Ib1 [Ic1 [Hi1 Hin1]]]]]]]]; [|exact Hi|exact Hin|].
      { apply (agree_trans _ _ (file st2)); [apply Hag; lia|]. eapply adds_agree; [exact A2| |].
        - intros k Hk [j [Hj Hk']]. pose proof (under_same_head _ _ _ _ Hk Hk') as E. apply index_name_inj in E. lia.
        - intros m x Hk [j [Hj Hk']]. cbn [tl] in Hk'. pose proof (under_same_head _ _ _ _ Hk Hk') as E. apply index_name_inj in E. lia. }
      destruct (R2 s rs1 b1 c1 fuel2 e) as [rs2 [b2 [c2 [l2 [Er2 [Ib2 [Ic2 [Hi2 HF]]]]]]]].
      { intros x Hx. apply He. right. exact Hx. }
      { intros j Hj. apply Hag. cbn [List.length]. lia. }
      { exact Hi1. }
      exists rs2, b2, c2, (a' :: l2). cbn [List.length seq read_members]. rewrite Er1. cbn [bind].
      rewrite Er2. cbn [bind]. split; [reflexivity|]. split; [eapply incl_tran; eassumption|]. split; [eapply incl_tran; eassumption|].
      split; [exact Hi2|]. constructor; [apply Ib2; exact Hin1|exact HF].
Qed.

(** ** Single fields *)
Lemma inv_ext : forall st st' rs b c open, wobjects st' = wobjects st -> warrays st' = warrays st -> inv st rs b c open -> inv st' rs b c open.
Proof. intros st st' rs b c open Eo Ea [I1 I2 I3 I4 I5 I6 I7]. split; try assumption; rewrite ?Eo, ?Ea; assumption. Qed.
Lemma fits_mono : forall (P Q : nat -> Prop) v k d, (forall x, P x -> Q x) -> fits r H content P v k d -> fits r H content Q v k d.
Proof.
  intros P Q v k d HPQ Hf. destruct Hf; constructor; auto.
  eapply Forall_impl; [|eassumption]. intros x [Hx1 Hx2]. split; [exact Hx1|apply HPQ; exact Hx2].
Qed.

Lemma inv_new_array : forall st rs b c open u n p, wf content st -> has st (n :: p) = false -> inv st rs b c open -> assoc u (warrays st) = None ->
  inv (remember_array (add_entry st (n :: p) (EData (content u))) u (n :: p)) (fst (load_array rs (n :: p) (content u)))
      b ((u, next_array rs) :: c) open.
Proof.
  intros st rs b c open u n p Hw Hf [I1 I2 I3 I4 I5 I6 I7] Hu. split; cbn [remember_array add_entry wobjects warrays load_array fst loaded robjects next_array rarrays]; try assumption.
  - intros a a' Hin. destruct (I2 _ _ Hin) as [o [o' [E1 [E2 [E3 E4]]]]]. exists o, o'. split; [exact E1|]. split; [exact E2|].
    split; [exact E3|]. eapply same_fields_mono; [apply incl_refl|apply incl_tl, incl_refl|exact E4].
  - destruct I5 as [F J]. split.
    + intros a x y [E|Hx] [E'|Hy].
      * injection E as <- <-. injection E' as <-. reflexivity.
      * injection E as <- <-. apply I6 in Hy. exfalso. apply (proj1 Hy). exact Hu.
      * injection E' as <- <-. apply I6 in Hx. exfalso. apply (proj1 Hx). exact Hu.
      * exact (F _ _ _ Hx Hy).
    + intros a a2 x [E|Hx] [E'|Hy].
      * injection E as <- <-. injection E' as <-. reflexivity.
      * injection E as <- <-. apply I6 in Hy. lia.
      * injection E' as <- <-. apply I6 in Hx. lia.
      * exact (J _ _ _ Hx Hy).
  - intros v v' [E|Hin].
    + injection E as <- <-. rewrite assoc_cons_eq. split; [discriminate|lia].
    + apply I6 in Hin. split; [|lia]. rewrite assoc_cons_ne; [apply Hin|]. intros ->. apply (proj1 Hin). exact Hu.
  - intros v q Hv. destruct (Nat.eq_dec v u) as [->|Hne].
    + rewrite assoc_cons_eq in Hv. injection Hv as <-. exists (next_array rs). rewrite lookup_cons_eq. split; [reflexivity|left; reflexivity].
    + rewrite assoc_cons_ne in Hv by exact Hne. destruct (I7 _ _ Hv) as [u' [E1 E2]]. exists u'. split; [|right; exact E2].
      rewrite lookup_cons_ne; [exact E1|]. intros ->. exact (fresh_array_path _ _ _ _ Hw Hf Hv).
Qed.
Lemma inv_copy_array : forall st rs b c open a n p, wf content st -> has st (n :: p) = false -> inv st rs b c open ->
  inv (add_entry st (n :: p) (EData a)) (fst (load_array rs (n :: p) a)) b c open.
Proof.
  intros st rs b c open a n p Hw Hf [I1 I2 I3 I4 I5 I6 I7]. split; cbn [add_entry wobjects warrays load_array fst loaded robjects next_array rarrays]; try assumption.
  - intros v v' Hin. apply I6 in Hin. split; [apply Hin|lia].
  - intros v q Hv. destruct (I7 _ _ Hv) as [u' [E1 E2]]. exists u'. split; [|exact E2].
    rewrite lookup_cons_ne; [exact E1|]. intros ->. exact (fresh_array_path _ _ _ _ Hw Hf Hv).
Qed.

Definition field_attr (p : path) (n : string) (k : path) : Prop := k = n :: p \/ under (n :: p) (tl k).
Definition low (R fuel : nat) (open : list nat) (x : nat) : Prop :=
  obj_spec x /\ rank x < R /\ rank x < fuel /\ (forall y, In y open -> rank x < rank y).

Lemma sequence_new : forall w st p ap l n, has st (n :: p) = false ->
  serialize_sequence w st p ap l n =
  foldM (fun s ia => w s (n :: p) (index_name (fst ia)) (snd ia)) (combine (seq 0 (List.length l)) l) (add_entry st (n :: p) EGroup).
Proof.
  intros w st p ap l n Hf. unfold serialize_sequence. rewrite Hf.
  assert (E : lookup (n :: p) (entries (file (add_entry st (n :: p) EGroup))) = Some EGroup) by (cbn [add_entry file entries]; apply lookup_cons_eq).
  assert (Er : resolve (file (add_entry st (n :: p) EGroup)) (n :: p) = n :: p) by (unfold resolve; rewrite E; reflexivity).
  cbv zeta. rewrite Er, E. destruct l; reflexivity.
Qed.

Lemma field_spec : forall R fuel p open st n v k d,
  fits r H content (low R fuel open) v k d -> wf content st -> exists_group st p ->
  has st (n :: p) = false -> lookup (n :: p) (attrs (file st)) = None \/ is_attribute k = false ->
  exists st', write_field (write_obj fuel H r) p st (n, v) = Ok st' /\
    adds (under (n :: p)) (fun x => (is_attribute k = true /\ x = n :: p) \/ under (n :: p) (tl x)) st st' /\ wf content st' /\
    forall s rs b c fuel2, R < fuel2 -> agree (n :: p) s (file st') ->
      (is_attribute k = true -> lookup (n :: p) (attrs s) = lookup (n :: p) (attrs (file st'))) -> inv st rs b c open ->
      exists rs' b' c' v', read_field (fun e => read_obj fuel2 r s e) s p rs (n, (k, d)) = Ok (rs', (n, v')) /\
        incl b b' /\ incl c c' /\ inv st' rs' b' c' open /\ same_value b' c' v v'.
Proof.
  intros R fuel p open st n v k d Hfit Hw Hp Hf Hat.
  destruct Hfit as [z d Hz|x d|x y d|t d|cache u a d Ha|x e d Hin Hlow|ap l e d Hl|k Hk].
  1: (assert (Hz' : int64 z = true) by (unfold int64; apply andb_true_intro; split; [apply Z.leb_le|apply Z.ltb_lt]; lia); clear Hz; rename Hz' into Hz).
  1-4: (eexists; unfold write_field, serialize_scalar; rewrite ?Hz; split; [reflexivity|]; split; [apply adds_attr; left; split; reflexivity|];
      split; [apply wf_set_attr; assumption|];
      intros s rs b c fuel2 HR Hag Hsc Hi; exists rs, b, c; eexists; specialize (Hsc eq_refl);
      cbn [set_attr file attrs] in Hsc; rewrite lookup_cons_eq in Hsc;
      unfold read_field, deserialize_scalar; rewrite Hsc; cbn [bind]; split; [reflexivity|];
      split; [apply incl_refl|]; split; [apply incl_refl|]; split; [eapply inv_ext; [| |exact Hi]; reflexivity|constructor]).
  - (* arrays *)
    assert (Hread : forall s rs fuel2 e, lookup (n :: p) (entries s) = Some e -> 
       read_field (fun e => read_obj fuel2 r s e) s p rs (n, (KArray, d)) =
       match e with EGroup => Raise TypeError | EData a => Ok (fst (load_array rs (n :: p) a), (n, VArray true (next_array rs) a)) 
       | ESoft q => do '(rs', v) <- match lookup q (rarrays rs) with
          | Some (u, a) => Ok (rs, VArray true u a)
          | None => match lookup q (entries s) with
                | Some (EData a) => Ok (load_array rs q a)
                | Some _ => Raise TypeError
                | None => Raise KeyError
                end
          end; Ok (rs', (n, v)) end).
    { intros s rs fuel2 e E. unfold read_field, deserialize_array. rewrite E. destruct e; reflexivity. }
    unfold write_field, serialize_array. rewrite Hf. destruct cache.
    + destruct (assoc u (warrays st)) as [q|] eqn:Hu.
      * eexists. split; [reflexivity|]. split; [apply adds_entry; apply under_refl|]. split; [apply wf_add_entry; assumption|].
        intros s rs b c fuel2 HR Hag _ Hi. destruct (g_cache _ _ _ _ _ Hi _ _ Hu) as [u' [E1 E2]].
        exists rs, b, c, (VArray true u' (content u)).
        rewrite (Hread s rs fuel2 (ESoft q)).
        -- rewrite E1. cbn [bind]. split; [reflexivity|]. split; [apply incl_refl|]. split; [apply incl_refl|].
           split; [eapply inv_ext; [| |exact Hi]; reflexivity|]. rewrite Ha. constructor. exact E2.
        -- rewrite (ag_e _ _ _ Hag) by apply under_refl. cbn [add_entry file entries]. apply lookup_cons_eq.
      * subst a. eexists. split; [reflexivity|].
        split; [apply (adds_trans _ _ _ (add_entry st (n :: p) (EData (content u)))); [apply adds_entry; apply under_refl|apply adds_array; exact Hu]|].
        split; [destruct (serialize_array_wf content st p true u (content u) n Hw Hp (fun _ => eq_refl)) as [Hx _]; unfold serialize_array in Hx; rewrite Hf, Hu in Hx; exact Hx|].
        intros s rs b c fuel2 HR Hag _ Hi.
        exists (fst (load_array rs (n :: p) (content u))), b, ((u, next_array rs) :: c), (VArray true (next_array rs) (content u)).
        rewrite (Hread s rs fuel2 (EData (content u))).
        -- split; [reflexivity|]. split; [apply incl_refl|]. split; [apply incl_tl, incl_refl|].
           split; [apply inv_new_array; assumption|]. constructor. left. reflexivity.
        -- rewrite (ag_e _ _ _ Hag) by apply under_refl. cbn [add_entry remember_array file entries]. apply lookup_cons_eq.
    + eexists. split; [reflexivity|]. split; [apply adds_entry; apply under_refl|]. split; [apply wf_add_entry; assumption|].
      intros s rs b c fuel2 HR Hag _ Hi.
      exists (fst (load_array rs (n :: p) a)), b, c, (VArray true (next_array rs) a).
      rewrite (Hread s rs fuel2 (EData a)).
      * split; [reflexivity|]. split; [apply incl_refl|]. split; [apply incl_refl|].
        split; [apply inv_copy_array; assumption|constructor].
      * rewrite (ag_e _ _ _ Hag) by apply under_refl. cbn [add_entry file entries]. apply lookup_cons_eq.
  - (* objects *)
    destruct Hlow as [Hsp [HR1 [HR2 Hop]]].
    assert (Hna : nth_error H x <> None) by (destruct Hin as [o [cl [E _]]]; rewrite E; discriminate).
    destruct (Hsp fuel p n st open HR2 Hop Hw Hp Hf Hna) as [st' [E [A [_ [_ [W Rd]]]]]].
    exists st'. split; [exact E|]. split; [eapply adds_weak; [exact A|auto|]; intros k Hk; right; exact Hk|]. split; [exact W|].
    intros s rs b c fuel2 HR Hag _ Hi. destruct (Rd s rs b c fuel2 e) as [rs' [b' [c' [a' [Er [Ib [Ic [Hi' Hin']]]]]]]]; [lia|exact Hag|exact Hi|exact Hin|].
    exists rs', b', c', (VObject a'). unfold read_field. rewrite Er. cbn [bind]. split; [reflexivity|]. split; [exact Ib|]. split; [exact Ic|].
    split; [exact Hi'|constructor; exact Hin'].
  - (* sequences *)
    assert (Hh : has st (n :: p) = false) by exact Hf.
    rewrite Forall_forall in Hl.
    destruct (members_spec fuel (n :: p) open l 0 (add_entry st (n :: p) EGroup)) as [st' [E [A [C [W Rd]]]]].
    { intros x Hx. destruct (Hl x Hx) as [Hin [Hsp [_ [HR2 Hop]]]]. split; [exact Hsp|]. split; [exact HR2|]. split; [exact Hop|].
      destruct Hin as [o [cl [E _]]]. rewrite E. discriminate. }
    { apply wf_add_entry; assumption. }
    { right. apply holds_entry. left. reflexivity. }
    { intros j _. destruct (has (add_entry st (n :: p) EGroup) (index_name j :: n :: p)) eqn:E; [|reflexivity]. exfalso.
      apply holds_entry in E. destruct E as [E|E].
      - apply (f_equal (@List.length string)) in E. cbn [List.length] in E. lia.
      - apply (fresh_below _ _ (n :: p) Hw) with (index_name j :: n :: p) in E; [exact E|discriminate|exact Hf|apply under_cons, under_refl]. }
    assert (Hm : forall k, in_members (n :: p) 0 k -> under (n :: p) k) by (intros k [j [_ Hk]]; eapply under_sub; exact Hk).
    assert (Hself : forall m, in_members (n :: p) 0 (m :: p) -> False).
    { intros m [j [_ Hk]]. apply under_length in Hk. cbn [List.length] in Hk. lia. }
    exists st'. unfold write_field. rewrite sequence_new by exact Hf. split; [exact E|]. split; [|split; [exact W|]].
    { apply (adds_trans _ _ _ (add_entry st (n :: p) EGroup)); [apply adds_entry; apply under_refl|].
      eapply adds_weak; [exact A|exact Hm|]. intros k Hk. right. apply Hm. exact Hk. }
    intros s rs b c fuel2 HR Hag _ Hi.
    assert (Es : lookup (n :: p) (entries s) = Some EGroup).
    { rewrite (ag_e _ _ _ Hag) by apply under_refl. rewrite (adds_lookup_e _ _ _ _ _ A); [|intros Hx; exact (Hself n Hx)]. cbn [add_entry file entries]. apply lookup_cons_eq. }
    destruct (Rd s rs b c fuel2 e) as [rs' [b' [c' [l' [Er [Ib [Ic [Hi' HF]]]]]]]].
    { intros x Hx. destruct (Hl x Hx) as [Hin [_ [HR1 _]]]. split; [lia|exact Hin]. }
    { intros j _. apply agree_sub. exact Hag. }
    { eapply inv_ext; [| |exact Hi]; reflexivity. }
    exists rs', b', c', (VSeq false l'). unfold read_field, deserialize_sequence. rewrite Es. cbn [is_some negb].
    assert (Ec : children s (n :: p) = List.length l).
    { rewrite (ag_c _ _ _ Hag) by apply under_refl. rewrite C. 
      rewrite (adds_children (eq (n :: p)) (fun _ => False) st (add_entry st (n :: p) EGroup)).
      - rewrite (fresh_children content) by assumption. reflexivity.
      - apply adds_entry. reflexivity.
      - intros m Em. apply (f_equal (@List.length string)) in Em. cbn [List.length] in Em. lia. }
    unfold resolve. rewrite Es, Ec.
    change (read_obj fuel2 r s e) with (fun rs g n => read_obj fuel2 r s e rs g n). rewrite Er. cbn [bind].
    split; [reflexivity|]. split; [exact Ib|]. split; [exact Ic|]. split; [exact Hi'|constructor; exact HF].
  - (* absent optional fields *)
    exists st. split; [reflexivity|]. split; [apply adds_refl|]. split; [exact Hw|].
    intros s rs b c fuel2 HR Hag Hsc Hi. exists rs, b, c, VNone.
    assert (Es : lookup (n :: p) (entries s) = None).
    { rewrite (ag_e _ _ _ Hag) by apply under_refl. apply not_holds. exact Hf. }
    assert (Ea : is_attribute k = true -> lookup (n :: p) (attrs s) = None).
    { intros Ek. rewrite (Hsc Ek). destruct Hat as [E|E]; congruence. }
    assert (Er : read_field (fun e => read_obj fuel2 r s e) s p rs (n, (k, true)) = Ok (rs, (n, VNone)) \/ fuel2 = 0).
    { destruct k; cbn [is_attribute] in Ea; unfold read_field, deserialize_scalar, deserialize_array; rewrite ?Ea by reflexivity; rewrite ?Es; cbn [bind].
      1-5: left; reflexivity.
      - destruct fuel2; [right; reflexivity|left]. cbn [read_obj]. rewrite Es. reflexivity.
      - exfalso. exact (Hk expected eq_refl). }
    destruct Er as [Er|Er]; [|lia].
    rewrite Er. split; [reflexivity|]. split; [apply incl_refl|]. split; [apply incl_refl|]. split; [exact Hi|constructor].
Qed.

(** ** Lists of fields *)
Definition in_fields (p : path) (ns : list string) (k : path) : Prop := exists n, In n ns /\ under (n :: p) k.
Definition attr_of_fields (p : path) (ns : list string) (k : path) : Prop :=
  (exists n, In n ns /\ n <> "type"%string /\ k = n :: p) \/ in_fields p ns (tl k).

Definition names_fresh (p : path) (st : wstate) (ns : list string) : Prop :=
  forall n, In n ns -> has st (n :: p) = false /\ (n <> "type"%string -> lookup (n :: p) (attrs (file st)) = None).

Lemma in_fields_head : forall p ns n k, in_fields p ns k -> under (n :: p) k -> In n ns.
Proof. intros p ns n k [m [Hm Hk]] Hu. rewrite (under_same_head _ _ _ _ Hu Hk). exact Hm. Qed.

Lemma fields_spec : forall R fuel p open fs ks st,
  NoDup (map fst fs) ->
  Forall2 (fun f k => fst f = fst k /\ fits r H content (low R fuel open) (snd f) (fst (snd k)) (snd (snd k)) /\
                      (fst f = "type"%string -> is_attribute (fst (snd k)) = false)) fs ks ->
  wf content st -> exists_group st p -> names_fresh p st (map fst fs) ->
  exists st', foldM (write_field (write_obj fuel H r) p) fs st = Ok st' /\
    adds (in_fields p (map fst fs)) (attr_of_fields p (map fst fs)) st st' /\ wf content st' /\
    forall s rs b c fuel2, R < fuel2 -> (forall n, In n (map fst fs) -> agree (n :: p) s (file st')) ->
      (forall n, In n (map fst fs) -> n <> "type"%string -> lookup (n :: p) (attrs s) = lookup (n :: p) (attrs (file st'))) ->
      inv st rs b c open ->
      exists rs' b' c' fs', read_fields (fun e => read_obj fuel2 r s e) s p ks rs = Ok (rs', fs') /\
        incl b b' /\ incl c c' /\ inv st' rs' b' c' open /\ same_fields b' c' fs fs'.
Proof.
  intros R fuel p open fs. induction fs as [|[n v] fs IH]; intros ks st Hnd Hfk Hw Hp Hfr.
  - inversion Hfk. subst ks. exists st. cbn [foldM]. split; [reflexivity|]. split; [apply adds_refl|]. split; [exact Hw|].
    intros s rs b c fuel2 _ _ _ Hi. exists rs, b, c, []. split; [reflexivity|]. split; [apply incl_refl|]. split; [apply incl_refl|].
    split; [exact Hi|constructor].
  - inversion Hfk as [|f k fs0 ks0 Hfit Hrest Ef Ek]. subst f fs0 ks.
    destruct k as [n' [k d]]. cbn [fst snd] in Hfit. destruct Hfit as [<- [Hfit Hty]].
    cbn [map fst] in Hnd, Hfr. inversion Hnd as [|x xs Hnin Hnd' Ex]. subst x xs.
    destruct (Hfr n (or_introl eq_refl)) as [Hf Ha].
    assert (Hat : lookup (n :: p) (attrs (file st)) = None \/ is_attribute k = false).
    { destruct (string_dec n "type") as [E|E]; [right; apply Hty; exact E|left; apply Ha; exact E]. }
    destruct (field_spec R fuel p open st n v k d Hfit Hw Hp Hf Hat) as [st1 [E1 [A1 [W1 R1]]]].
    assert (Htype : is_attribute k = true -> n <> "type"%string) by (intros E E'; rewrite (Hty E') in E; discriminate).
    destruct (IH ks0 st1 Hnd' Hrest W1 (adds_exists _ _ _ _ _ A1 Hp)) as [st2 [E2 [A2 [W2 R2]]]].
    { intros m Hm. assert (Hmn : m <> n) by (intros ->; exact (Hnin Hm)).
      destruct (Hfr m (or_intror Hm)) as [Hfm Ham]. split.
      - unfold has. rewrite (adds_lookup_e _ _ _ _ _ A1); [exact Hfm|]. intros Hu. apply Hmn.
        apply (under_same_head _ _ _ _ (under_refl _) Hu).
      - intros Ht. rewrite (adds_lookup_a _ _ _ _ _ A1); [apply Ham; exact Ht|]. intros [[_ E]|Hu].
        + injection E as E. exact (Hmn E).
        + cbn [tl] in Hu. exact (not_under_self _ _ Hu). }
    exists st2. cbn [foldM map fst]. rewrite E1. cbn [bind]. split; [exact E2|]. split; [|split; [exact W2|]].
    { apply (adds_trans _ _ _ st1).
      - eapply adds_weak; [exact A1| |].
        + intros k0 Hk. exists n. split; [left; reflexivity|exact Hk].
        + intros k0 [[Hat1 Hk]|Hk].
          * left. exists n. split; [left; reflexivity|]. split; [apply Htype; exact Hat1|exact Hk].
          * right. exists n. split; [left; reflexivity|exact Hk].
      - eapply adds_weak; [exact A2| |].
        + intros k0 [m [Hm Hk]]. exists m. split; [right; exact Hm|exact Hk].
        + intros k0 [[m [Hm [Ht Hk]]]|[m [Hm Hk]]].
          * left. exists m. split; [right; exact Hm|]. split; assumption.
          * right. exists m. split; [right; exact Hm|exact Hk]. }
    intros s rs b c fuel2 HR Hag Hsc Hi.
    assert (Hn2 : forall x, under (n :: p) x -> ~ in_fields p (map fst fs) x).
    { intros x Hx Hin. exact (Hnin (in_fields_head _ _ _ _ Hin Hx)). }
    destruct (R1 s rs b c fuel2 HR) as [rs1 [b1 [c1 [v' [Er1 [Ib1 [Ic1 [Hi1 Hv]]]]]]]].
    { apply (agree_trans _ _ (file st2)); [apply Hag; left; reflexivity|]. eapply adds_agree; [exact A2|exact Hn2|].
      intros m x Hx [[m' [Hm' [_ E]]]|Hin].
      - injection E as <- ->. exact (not_under_self _ _ Hx).
      - exact (Hn2 _ Hx Hin). }
    { intros Hk. rewrite (Hsc n (or_introl eq_refl) (Htype Hk)). apply (adds_lookup_a _ _ _ _ _ A2).
      intros [[m [Hm [_ E]]]|[m [Hm Hk']]].
      - injection E as <-. exact (Hnin Hm).
      - cbn [tl] in Hk'. exact (not_under_self _ _ Hk'). }
    { exact Hi. }
    destruct (R2 s rs1 b1 c1 fuel2 HR) as [rs2 [b2 [c2 [fs' [Er2 [Ib2 [Ic2 [Hi2 HF]]]]]]]].
    { intros m Hm. apply Hag. right. exact Hm. }
    { intros m Hm. apply Hsc. right. exact Hm. }
    { exact Hi1. }
    exists rs2, b2, c2, ((n, v') :: fs'). cbn [read_fields]. rewrite Er1. cbn [bind]. rewrite Er2. cbn [bind].
    split; [reflexivity|]. split; [eapply incl_tran; eassumption|]. split; [eapply incl_tran; eassumption|]. split; [exact Hi2|].
    constructor; [|exact HF]. split; [reflexivity|]. eapply same_value_mono; eassumption.
Qed.

(** ** Objects *)
Lemma inv_open : forall st rs b c open a p, assoc a (wobjects st) = None -> inv st rs b c open ->
  inv (remember_object st a p) rs b c (a :: open).
Proof.
  intros st rs b c open a p Ha [I1 I2 I3 I4 I5 I6 I7]. split; cbn [remember_object wobjects warrays]; try assumption.
  - intros x x' Hin. destruct (I3 _ _ Hin) as [Hx Ho]. assert (Hxa : x <> a) by (intros ->; exact (Hx Ha)).
    rewrite assoc_cons_ne by exact Hxa. split; [exact Hx|]. intros [E|E]; [congruence|exact (Ho E)].
  - intros x q Hx Hno. destruct (Nat.eq_dec x a) as [->|Hne]; [exfalso; apply Hno; left; reflexivity|].
    rewrite assoc_cons_ne in Hx by exact Hne. apply I4; [exact Hx|]. intros Ho. apply Hno. right. exact Ho.
Qed.
Lemma inv_close : forall st rs b c open a p o fs, wf content st -> nth_error H a = Some o -> assoc a (wobjects st) = Some p ->
  ~ In a open -> inv st rs b c (a :: open) -> same_fields b c (fields o) fs ->
  inv st (mkR (loaded rs ++ [mkObj (tag o) fs]) (next_array rs) ((p, List.length (loaded rs)) :: robjects rs) (rarrays rs))
      ((a, List.length (loaded rs)) :: b) c open.
Proof.
  intros st rs b c open a p o fs Hw Ho Ha Hno [I1 I2 I3 I4 I5 I6 I7] Hfs.
  assert (Hlt : forall x x', In (x, x') b -> x' < List.length (loaded rs)).
  { intros x x' Hin. destruct (I2 _ _ Hin) as [y [y' [_ [E _]]]]. apply nth_error_Some. rewrite E. discriminate. }
  assert (Hna : forall x', ~ In (a, x') b) by (intros x' Hin; apply (proj2 (I3 _ _ Hin)); left; reflexivity).
  split; cbn [loaded robjects rarrays next_array]; try assumption.
  - destruct I1 as [F J]. split.
    + intros x y z [E|Hy] [E'|Hz].
      * congruence.
      * injection E as <- <-. destruct (Hna _ Hz).
      * injection E' as <- <-. destruct (Hna _ Hy).
      * exact (F _ _ _ Hy Hz).
    + intros x y z [E|Hy] [E'|Hz].
      * congruence.
      * injection E as <- <-. apply Hlt in Hz. lia.
      * injection E' as <- <-. apply Hlt in Hy. lia.
      * exact (J _ _ _ Hy Hz).
  - intros x x' [E|Hin].
    + injection E as <- <-. exists o, (mkObj (tag o) fs). split; [exact Ho|]. split.
      * rewrite nth_error_app2 by lia. rewrite Nat.sub_diag. reflexivity.
      * split; [reflexivity|]. cbn [fields]. eapply same_fields_mono; [apply incl_tl, incl_refl|apply incl_refl|exact Hfs].
    + destruct (I2 _ _ Hin) as [y [y' [E1 [E2 [E3 E4]]]]]. exists y, y'. split; [exact E1|]. split.
      * rewrite nth_error_app1 by (eapply Hlt; exact Hin). exact E2.
      * split; [exact E3|]. eapply same_fields_mono; [apply incl_tl, incl_refl|apply incl_refl|exact E4].
  - intros x x' [E|Hin].
    + injection E as <- <-. rewrite Ha. split; [discriminate|exact Hno].
    + destruct (I3 _ _ Hin) as [Hx Hxo]. split; [exact Hx|]. intros Hc. apply Hxo. right. exact Hc.
  - intros x q Hx Hxo. destruct (Nat.eq_dec x a) as [->|Hne].
    + rewrite Ha in Hx. injection Hx as <-. exists (List.length (loaded rs)). rewrite lookup_cons_eq. split; [reflexivity|left; reflexivity].
    + destruct (I4 x q Hx) as [x' [E1 E2]]; [intros [E|E]; [congruence|exact (Hxo E)]|].
      exists x'. split; [|right; exact E2]. rewrite lookup_cons_ne; [exact E1|]. intros ->. apply Hne.
      exact (wf_obj_inj _ _ Hw _ _ _ Hx Ha).
Qed.

Lemma every_obj : forall a, obj_spec a.
Proof.
  intros a. remember (S (rank a)) as N eqn:HN. assert (Hlt : rank a < N) by lia. clear HN. revert a Hlt.
  induction N as [|N IH]; intros a Hlt; [lia|].
  intros fuel g n st open Hfuel Hop Hw Hg Hf Hna.
  destruct (nth_error H a) as [o|] eqn:Ho; [|contradiction]. clear Hna.
  destruct fuel as [|fuel]; [lia|].
  destruct (HW _ _ Ho) as [cl [Hcl [Hnd Hread]]].
  assert (Hnew : new_link st (n :: g)) by (unfold new_link, holds; rewrite Hf; discriminate).
  assert (Haopen : ~ In a open) by (intros Hin; apply Hop in Hin; lia).
  cbn [write_obj]. rewrite Ho, Hcl. cbn [is_some negb]. rewrite Hf.
  destruct (assoc a (wobjects st)) as [q|] eqn:Ha.
  - (* already written *)
    eexists. split; [reflexivity|]. split; [apply adds_entry; apply under_refl|].
    split; [rewrite !children_eq; cbn [add_entry file entries filter direct fst]; unfold direct at 1; cbn [fst]; rewrite path_eqb_refl; reflexivity|].
    split; [apply holds_entry; left; reflexivity|]. split; [apply wf_add_entry; assumption|].
    intros s rs b c fuel2 e Hf2 Hag Hi Hin. destruct fuel2 as [|fuel2]; [lia|].
    destruct (i_cache _ _ _ _ _ Hi _ _ Ha Haopen) as [a' [E1 E2]].
    exists rs, b, c, a'. cbn [read_obj].
    assert (Es : lookup (n :: g) (entries s) = Some (ESoft q)).
    { rewrite (ag_e _ _ _ Hag) by apply under_refl. cbn [add_entry file entries]. apply lookup_cons_eq. }
    rewrite Es, E1. destruct (i_rel _ _ _ _ _ Hi _ _ E2) as [o1 [o2 [E3 [E4 [E5 _]]]]].
    rewrite E4. assert (o1 = o) by congruence. subst o1. rewrite <- E5, Hcl.
    destruct Hin as [o3 [cl' [E6 [E7 E8]]]]. assert (o3 = o) by congruence. subst o3.
    assert (cl' = cl) by congruence. subst cl'. rewrite E8.
    split; [reflexivity|]. split; [apply incl_refl|]. split; [apply incl_refl|].
    split; [eapply inv_ext; [| |exact Hi]; reflexivity|exact E2].
  - (* new group *)
    set (p := n :: g) in *. set (st0 := remember_object (add_entry st p EGroup) a p).
    assert (Hh : holds (add_entry st p EGroup) p) by (apply holds_entry; left; reflexivity).
    assert (W0 : wf content st0).
    { apply wf_remember_object; [apply wf_add_entry; assumption|exact Hh|].
      intros x. cbn [add_entry wobjects]. eapply fresh_object_path; eassumption. }
    assert (G0 : exists_group st0 p) by (right; exact Hh).
    destruct (fields_spec (rank a) fuel p (a :: open) (fields o) (readers cl) st0) as [st1 [E1 [A1 [W1 R1]]]].
    { exact Hnd. }
    { eapply Forall2_impl; [|exact Hread]. intros f k [Hx [Hy Hz]]. split; [exact Hx|]. split; [|exact Hz].
      eapply fits_mono; [|exact Hy]. intros x Hx'. cbv beta in Hx'. split; [apply IH; lia|]. split; [exact Hx'|]. split; [lia|].
      intros y [<-|Hin]; [exact Hx'|]. apply Hop in Hin. lia. }
    { exact W0. }
    { exact G0. }
    { intros m _. split.
      - destruct (has st0 (m :: p)) eqn:E; [|reflexivity]. exfalso. apply holds_entry in E. destruct E as [E|E].
        + apply (f_equal (@List.length string)) in E. cbn [List.length] in E. lia.
        + apply (fresh_below _ _ p Hw) with (m :: p) in E; [exact E|discriminate|exact Hf|apply under_cons, under_refl].
      - intros _. change (attrs (file st0)) with (attrs (file st)). eapply fresh_attr; [exact Hw| |exact Hf|apply under_refl]. discriminate. }
    rewrite E1. cbn [bind]. eexists. split; [reflexivity|].
    assert (Ain : forall k, in_fields p (map fst (fields o)) k -> under p k) by (intros k [m [_ Hk]]; eapply under_sub; exact Hk).
    assert (Aat : forall k, attr_of_fields p (map fst (fields o)) k -> under p (tl k)).
    { intros k [[m [_ [_ ->]]]|Hk]; [apply under_refl|apply Ain; exact Hk]. }
    assert (A0 : adds (under p) (fun k => under p (tl k)) st st0).
    { apply (adds_trans _ _ _ (add_entry st p EGroup)); [apply adds_entry; apply under_refl|apply adds_object; exact Ha]. }
    assert (Hself : forall m, ~ in_fields p (map fst (fields o)) (m :: g)).
    { intros m [x [_ Hk]]. apply under_length in Hk. unfold p in Hk. cbn [List.length] in Hk. lia. }
    split; [|split; [|split; [|split]]].
    + apply (adds_trans _ _ _ st0); [exact A0|]. apply (adds_trans _ _ _ st1).
      * eapply adds_weak; [exact A1|exact Ain|exact Aat].
      * apply adds_attr. apply under_refl.
    + change (file (set_attr st1 ("type"%string :: p) (SStr (tag o)))) with (mkStore (entries (file st1)) (("type"%string :: p, SStr (tag o)) :: attrs (file st1))).
      change (children {| entries := entries (file st1); attrs := ("type"%string :: p, SStr (tag o)) :: attrs (file st1) |} g) with (children (file st1) g).
      rewrite (adds_children _ _ _ _ _ A1) by exact Hself.
      rewrite !children_eq. change (entries (file st0)) with ((p, EGroup) :: entries (file st)). cbn [filter].
      assert (Ed : direct g (p, EGroup) = true) by (unfold direct, p; cbn [fst]; apply path_eqb_refl). rewrite Ed. reflexivity.
    + change (holds st1 p). eapply adds_holds; [exact A1|exact Hh].
    + apply wf_set_attr; [exact W1|]. eapply adds_exists; eassumption.
    + intros s rs b c fuel2 e Hf2 Hag Hi Hin. destruct fuel2 as [|fuel2]; [lia|].
      assert (Aty : adds (fun _ => False) (eq ("type"%string :: p)) st1 (set_attr st1 ("type"%string :: p) (SStr (tag o)))) by (apply adds_attr; reflexivity).
      destruct (R1 s rs b c fuel2) as [rs1 [b1 [c1 [fs' [Er [Ib [Ic [Hi1 Hfs]]]]]]]].
      { lia. }
      { intros m _. eapply agree_trans; [apply agree_sub; exact Hag|]. eapply adds_agree; [exact Aty|auto|].
        intros k x Hx E. injection E as _ E. rewrite <- E in Hx. exact (not_under_self _ _ Hx). }
      { intros m _ Hm. rewrite (ag_a _ _ _ Hag) by apply under_refl. eapply adds_lookup_a; [exact Aty|]. intros E. injection E as E. congruence. }
      { apply inv_open; [exact Ha|]. eapply inv_ext; [| |exact Hi]; reflexivity. }
      set (a' := List.length (loaded rs1)).
      exists (mkR (loaded rs1 ++ [mkObj (tag o) fs']) (next_array rs1) ((p, a') :: robjects rs1) (rarrays rs1)), ((a, a') :: b1), c1, a'.
      cbn [read_obj]. fold p.
      assert (Es : lookup p (entries s) = Some EGroup).
      { rewrite (ag_e _ _ _ Hag) by apply under_refl. 
        transitivity (lookup p (entries (file st1))); [reflexivity|]. rewrite (adds_lookup_e _ _ _ _ _ A1) by (intros Hx; exact (Hself n Hx)).
        change (entries (file st0)) with ((p, EGroup) :: entries (file st)). apply lookup_cons_eq. }
      assert (Et : lookup ("type"%string :: p) (attrs s) = Some (SStr (tag o))).
      { rewrite (ag_a _ _ _ Hag) by apply under_refl. cbn [set_attr file attrs]. apply lookup_cons_eq. }
      rewrite Es, Et, Hcl. destruct Hin as [o3 [cl' [E6 [E7 E8]]]]. assert (o3 = o) by congruence. subst o3.
      assert (cl' = cl) by congruence. subst cl'. rewrite E8. cbn [negb]. rewrite Er. cbn [bind].
      split; [reflexivity|]. split; [apply incl_tl; exact Ib|]. split; [exact Ic|]. split; [|left; reflexivity].
      apply (inv_ext st1); [reflexivity|reflexivity|]. apply inv_close; try assumption.
      apply (add_o _ _ _ _ A1). unfold st0. cbn [remember_object wobjects]. apply assoc_cons_eq.
Qed.

(** * Files *)
Definition reserved (n : string) : Prop := n = "arrays"%string \/ n = "version"%string \/ n = "timestamp"%string.

Lemma wf_new_file : forall v t, wf content (new_file v t).
Proof.
  intros v t. assert (Hh : forall p, holds (new_file v t) p -> p = ["arrays"%string]).
  { intros p Hp. unfold holds, has in Hp. cbn [new_file file entries lookup] in Hp.
    destruct (path_eqb p ["arrays"%string]) eqn:E; [apply path_eqb_true in E; exact E|discriminate]. }
  split; cbn [new_file wobjects warrays assoc]; try discriminate.
  - intros m x Hx. apply Hh in Hx. injection Hx as _ ->. left. reflexivity.
  - intros m x s Hx. cbn in Hx. left.
    destruct (path_eqb (m :: x) ["timestamp"%string]) eqn:E; [apply path_eqb_true in E; congruence|].
    destruct (path_eqb (m :: x) ["version"%string]) eqn:E'; [apply path_eqb_true in E'; congruence|discriminate Hx].
Qed.

Lemma file_roundtrip : forall fuel fuel2 v t a o cl, rank a <= fuel -> rank a < fuel2 ->
  nth_error H a = Some o -> find_class (tag o) r = Some cl -> (forall n, In n (map fst (fields o)) -> ~ reserved n) ->
  exists s H' o', to_hdf fuel H r v t a = Ok s /\ from_hdf fuel2 r s (tag o) = Ok (H', o') /\ isomorphic H o H' o'.
Proof.
  intros fuel fuel2 v t a o cl Hf Hf2 Ho Hcl Hres. destruct (HW _ _ Ho) as [cl' [Hcl' [Hnd Hread]]].
  assert (cl' = cl) by congruence. subst cl'.
  destruct (fields_spec (rank a) fuel [] [] (fields o) (readers cl) (new_file v t)) as [st [E [A [W R]]]].
  { exact Hnd. }
  { eapply Forall2_impl; [|exact Hread]. intros f k [Hx [Hy Hz]]. split; [exact Hx|]. split; [|exact Hz].
    eapply fits_mono; [|exact Hy]. intros x Hx'. split; [apply every_obj|]. split; [exact Hx'|]. split; [cbv beta in Hx'; lia|intros y []]. }
  { apply wf_new_file. }
  { left. reflexivity. }
  { intros n Hn. specialize (Hres n Hn). assert (Hd : forall m, reserved m -> [n] <> [m]) by (intros m Hm Em; injection Em as ->; exact (Hres Hm)).
    split.
    - unfold has. cbn [new_file file entries lookup]. rewrite path_eqb_false; [reflexivity|apply Hd; left; reflexivity].
    - intros _. cbn [new_file file attrs lookup]. rewrite !path_eqb_false; [reflexivity| |]; apply Hd; [right; left|right; right]; reflexivity. }
  destruct (R (file st) empty_reader [] [] fuel2 Hf2) as [rs [b [c [fs' [Er [_ [_ [Hi Hfs]]]]]]]].
  { intros n _. apply agree_refl. }
  { reflexivity. }
  { split; cbn [new_file wobjects warrays assoc]; try discriminate; try (intros; contradiction).
    - split; intros x y z Hx; destruct Hx.
    - split; intros x y z Hx; destruct Hx. }
  exists (file st), (loaded rs), (mkObj (tag o) fs'). unfold to_hdf, from_hdf. rewrite Ho, E. cbn [bind]. split; [reflexivity|].
  rewrite Hcl. change (fun e => read_obj fuel2 r (file st) e) with (read_obj fuel2 r (file st)) in Er.
  change (fun e => read_obj fuel2 r (file st) e) with (read_obj fuel2 r (file st)). rewrite Er. cbn [bind]. split; [reflexivity|].
  exists b, c. split; [exact (i_one _ _ _ _ _ Hi)|]. split; [exact (g_one _ _ _ _ _ Hi)|]. split; [split; [reflexivity|exact Hfs]|].
  exact (i_rel _ _ _ _ _ Hi).
Qed.
End Reading.
