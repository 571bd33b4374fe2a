(** Proofs for C100: a boolean checker for one class, its soundness for every
    object of the class, and the run of the checker over the whole table. *)
From Coq Require Import List Bool ZArith String Floats.SpecFloat Lia.
From Verif Require Import Base Cfg_Model Cfg_Spec.
Import ListNotations.
Local Open Scope string_scope.

Section ValInd.
  Variable P : val -> Prop.
  Hypothesis Hnone : P VNone.
  Hypothesis Hint : forall z, P (VInt z).
  Hypothesis Hfloat : forall f, P (VFloat f).
  Hypothesis Hpair : forall a b, P (VPair a b).
  Hypothesis Hstr : forall s, P (VStr s).
  Hypothesis Harr : forall d s x, P (VArr d s x).
  Hypothesis Hobj : forall c fs, Forall (fun p => P (snd p)) fs -> P (VObj c fs).
  Hypothesis Hseq : forall l, Forall P l -> P (VSeq l).
  Fixpoint val_ind' (v : val) : P v :=
    match v with
    | VNone => Hnone
    | VInt z => Hint z
    | VFloat f => Hfloat f
    | VPair a b => Hpair a b
    | VStr s => Hstr s
    | VArr d s x => Harr d s x
    | VObj c fs => Hobj c fs ((fix go (l : list (string * val)) : Forall (fun p => P (snd p)) l :=
        match l with [] => Forall_nil _ | p :: t => Forall_cons _ (val_ind' (snd p)) (go t) end) fs)
    | VSeq l => Hseq l ((fix go (l : list val) : Forall P l :=
        match l with [] => Forall_nil _ | p :: t => Forall_cons _ (val_ind' p) (go t) end) l)
    end.
End ValInd.

(** ** Decidable equality *)
Definition dtype_dec : forall a b : dtype, {a = b} + {a <> b}. decide equality. Defined.
Definition sf_dec : forall a b : spec_float, {a = b} + {a <> b}.
  decide equality; try apply Bool.bool_dec; try apply Z.eq_dec; apply Pos.eq_dec. Defined.
Definition wkind_dec : forall a b : wkind, {a = b} + {a <> b}.
  decide equality. decide equality. apply dtype_dec. Defined.
Definition write_dec : forall a b : write, {a = b} + {a <> b}.
  decide equality.
  - decide equality. apply string_dec.
  - apply Bool.bool_dec.
  - apply wkind_dec.
  - apply string_dec.
  - apply string_dec. Defined.
Definition dec {P} (d : {P} + {~ P}) : bool := if d then true else false.
Lemma dec_true {P} (d : {P} + {~ P}) : dec d = true -> P.
Proof. destruct d; [auto | discriminate]. Qed.
Lemma dtype_eqb_eq a b : dtype_eqb a b = true -> a = b.
Proof. destruct a, b; cbn; congruence. Qed.

Fixpoint val_eqb (a b : val) {struct a} : bool :=
  match a, b with
  | VNone, VNone => true
  | VInt x, VInt y => Z.eqb x y
  | VFloat x, VFloat y => dec (sf_dec x y)
  | VPair x y, VPair x' y' => dec (sf_dec x x') && dec (sf_dec y y')
  | VStr x, VStr y => String.eqb x y
  | VArr d s x, VArr d' s' x' =>
      dec (dtype_dec d d') && dec (list_eq_dec Nat.eq_dec s s') && dec (list_eq_dec sf_dec x x')
  | VObj c fs, VObj c' fs' => String.eqb c c' &&
      (fix go (l : list (string * val)) (l' : list (string * val)) : bool :=
         match l, l' with
         | [], [] => true
         | p :: t, p' :: t' => String.eqb (fst p) (fst p') && val_eqb (snd p) (snd p') && go t t'
         | _, _ => false
         end) fs fs'
  | VSeq l, VSeq l' =>
      (fix go (l l' : list val) : bool :=
         match l, l' with
         | [], [] => true
         | p :: t, p' :: t' => val_eqb p p' && go t t'
         | _, _ => false
         end) l l'
  | _, _ => false
  end.
Lemma val_eqb_eq : forall a b, val_eqb a b = true -> a = b.
Proof.
  induction a using val_ind'; intros b0 E; destruct b0; cbn in E; try discriminate; auto.
  - apply Z.eqb_eq in E; congruence.
  - apply dec_true in E; congruence.
  - apply andb_prop in E as [E1 E2]. apply dec_true in E1. apply dec_true in E2. congruence.
  - apply String.eqb_eq in E; congruence.
  - apply andb_prop in E as [E E3]. apply andb_prop in E as [E1 E2].
    apply dec_true in E1. apply dec_true in E2. apply dec_true in E3. congruence.
  - apply andb_prop in E as [E1 E2]. apply String.eqb_eq in E1. subst cls. f_equal.
    revert fields E2. induction H as [|p t Hp Ht IH]; intros [|q u] E2; try discriminate; auto.
    apply andb_prop in E2 as [E2 E3]. apply andb_prop in E2 as [E1 E2].
    apply String.eqb_eq in E1. apply Hp in E2. f_equal; [|auto].
    destruct p, q; cbn in *; congruence.
  - f_equal. revert l0 E. induction H as [|p t Hp Ht IH]; intros [|q u] E; try discriminate; auto.
    apply andb_prop in E as [E1 E2]. f_equal; auto.
Qed.

(** ** Association lists *)
Lemma assoc_map {A B} (g : A -> B) k l :
  assoc k (map (fun p => (fst p, g (snd p))) l) = option_map g (assoc k l).
Proof. induction l as [|[k' a] t IH]; cbn; auto. destruct (String.eqb k k'); auto. Qed.
Lemma assoc_app {A} k (l l' : list (string * A)) :
  assoc k (l ++ l')%list = match assoc k l with Some a => Some a | None => assoc k l' end.
Proof. induction l as [|[k' a] t IH]; cbn; auto. destruct (String.eqb k k'); auto. Qed.
Lemma assoc_not_in {A} k (l : list (string * A)) : ~ In k (map fst l) -> assoc k l = None.
Proof.
  induction l as [|[k' a] t IH]; cbn; auto. intros N. destruct (String.eqb_spec k k') as [->|].
  - exfalso; auto.
  - apply IH; auto.
Qed.
Lemma assoc_in {A} k (l : list (string * A)) a : assoc k l = Some a -> In (k, a) l.
Proof.
  induction l as [|[k' a'] t IH]; cbn; [discriminate|].
  destruct (String.eqb_spec k k') as [->|]; [intros [= ->]; auto | auto].
Qed.
Lemma in_assoc {A} k (l : list (string * A)) a :
  NoDup (map fst l) -> In (k, a) l -> assoc k l = Some a.
Proof.
  induction l as [|[k' a'] t IH]; cbn; [tauto|]. intros N [E|E]; inversion N as [|? ? N1 N2]; subst.
  - injection E as -> ->. now rewrite String.eqb_refl.
  - destruct (String.eqb_spec k k') as [->|]; auto.
    exfalso. apply N1. change k' with (fst (k', a)). now apply in_map.
Qed.

(** ** The checker *)
Definition attr_keys (w : write) : list string :=
  match w_kind w with
  | WInt | WFloat | WStr => [w_key w]
  | WRange => [w_key w; w_key w ++ "_min"; w_key w ++ "_max"]
  | _ => []
  end.
Definition link_keys (w : write) : list string :=
  match w_kind w with WArr _ | WObj | WSeq => [w_key w] | _ => [] end.
Definition mem (k : string) (l : list string) : bool := existsb (String.eqb k) l.
Lemma mem_in k l : mem k l = false -> ~ In k l.
Proof.
  intros E I. assert (mem k l = true) as C; [|congruence].
  apply existsb_exists. exists k. split; auto. apply String.eqb_refl.
Qed.

Definition wbase (b : bty) (q : wkind) : bool :=
  match b, q with
  | TInt, WInt | TBool, WInt | TRate, WInt | TFloat, WFloat | TStr, WStr | TRange, WRange
  | TArr _, WArr _ | TNum, WArr _ | TObj _, WObj | TSeq _, WSeq => true
  | _, _ => false
  end.
Definition nullable (w : write) : bool :=
  w_opt w || match w_kind w with WRange => true | _ => false end.
Definition writable (ts : list (string * ty)) (t : ty) (w : write) : bool :=
  match t with
  | Req b => wbase b (w_kind w)
  | Opt b =>
      wbase b (w_kind w) &&
      match w_alt w with
      | Some g => match w_kind w, assoc g ts with WFloat, Some (Req TFloat) => negb (w_opt w) | _, _ => false end
      | None => nullable w || match w_kind w with WFloat => true | _ => false end
      end
  end.
(** The value read is the value written up to the fate. *)
Definition rbase (b : bty) (q : wkind) (r : rkind) (x : fate) : bool :=
  match b, q, r, x with
  | TInt, WInt, RInt, Kept | TBool, WInt, RBool, Kept | TFloat, WFloat, RFloat, Kept
  | TStr, WStr, RStr, Kept | TRange, WRange, RRange, Kept => true
  | TRate, WInt, RIntF, Reset (VFloat (S754_zero false)) => true
  | TArr d, WArr _, RArr d', Kept => dtype_eqb d d'
  | TNum, WArr _, RArr d, Retyped d' => dtype_eqb d d'
  | TObj b, WObj, RObj b', Kept | TSeq b, WSeq, RSeq b', Kept => String.eqb b b'
  | _, _, _, _ => false
  end.
Definition def_none (r : read) : bool := match r_def r with Some VNone => true | _ => false end.
Definition readable (t : ty) (w : write) (r : read) (x : fate) : bool :=
  String.eqb (r_key r) (w_key w) &&
  match t with
  | Req b => rbase b (w_kind w) (r_kind r) x
  | Opt b =>
      match w_alt w with
      | None =>
          if nullable w then
            rbase b (w_kind w) (r_kind r) x && def_none r && is_kept x
            && match r_kind r with RSeq _ => false | _ => true end
          else match b, w_kind w, r_kind r, x with TFloat, WFloat, RFloat, NanIfNone => true | _, _, _, _ => false end
      | Some g =>
          match b, w_kind w, r_kind r, x with
          | TFloat, WFloat, RFloat, Frozen g' => String.eqb g g'
          | _, _, _, _ => false
          end
      end
  end.
(** Calls touching a key of [w] are repetitions of [w]. *)
Definition unique (ws : list write) (w : write) : bool :=
  forallb (fun w' => dec (write_dec w' w) ||
     (forallb (fun k => negb (mem k (attr_keys w'))) (attr_keys w)
      && forallb (fun k => negb (mem k (link_keys w'))) (link_keys w))) ws.
Definition read_attr_keys (r : read) : list string :=
  match r_kind r with
  | RRange => [r_key r; r_key r ++ "_min"; r_key r ++ "_max"]
  | RArr _ | RObj _ | RSeq _ => []
  | _ => [r_key r]
  end.
Definition read_link_keys (r : read) : list string :=
  match r_kind r with RArr _ | RObj _ | RSeq _ => [r_key r] | _ => [] end.
Definition absent (ws : list write) (r : read) : bool :=
  negb (mem "type" (read_attr_keys r)) &&
  forallb (fun w => forallb (fun k => negb (mem k (attr_keys w))) (read_attr_keys r)
                 && forallb (fun k => negb (mem k (link_keys w))) (read_link_keys r)) ws.
Definition resets (x : fate) (d : val) : bool :=
  match x with Reset d' => val_eqb d' d | _ => false end.
Definition default_read (r : read) (x : fate) : bool :=
  match r_kind r with
  | RSeq _ => resets x (VSeq [])
  | _ => match r_def r with Some d => resets x d | None => false end
  end.
Definition find_read (rs : list read) (f : string) : option read :=
  find (fun r => String.eqb (r_field r) f) rs.
Definition check_field (k : schema) (ft : string * ty) : bool :=
  let x := fate_of (s_name k) (fst ft) in
  match find_read (s_reads k) (fst ft) with
  | Some r =>
      existsb (fun w => String.eqb (w_field w) (fst ft) && readable (snd ft) w r x
                        && unique (s_writes k) w) (s_writes k)
      || (absent (s_writes k) r && default_read r x)
  | None => match assoc (fst ft) (s_init k) with Some d => resets x d | None => resets x VNone end
  end.
Definition check_write (k : schema) (w : write) : bool :=
  negb (mem "type" (attr_keys w)) &&
  match assoc (w_field w) (s_fields k) with
  | Some t => writable (s_fields k) t w
  | None => false
  end.
Fixpoint nodup (l : list string) : bool :=
  match l with [] => true | x :: t => negb (mem x t) && nodup t end.
Lemma nodup_NoDup l : nodup l = true -> NoDup l.
Proof.
  induction l as [|x t IH]; intros E; constructor; cbn in E; apply andb_prop in E as [E1 E2]; auto.
  apply mem_in. now apply negb_true_iff.
Qed.
Definition check_class (k : schema) : bool :=
  nodup (map fst (s_fields k)) && nodup (map r_field (s_reads k))
  && forallb (fun r => mem (r_field r) (map fst (s_fields k))) (s_reads k)
  && forallb (check_field k) (s_fields k) && forallb (check_write k) (s_writes k).

Example table_checked : map s_name (filter (fun k => negb (check_class k)) table) = ["BitErrorEvaluator"].
Proof. vm_compute. reflexivity. Qed.

(** ** What a sequence of calls leaves in the group *)
Lemma put_attrs x a : fold_left put_attr x a = (rev x ++ a)%list.
Proof.
  revert a. induction x as [|p t IH]; intros a; cbn; auto. rewrite IH. unfold put_attr.
  rewrite <- app_assoc. reflexivity.
Qed.
Lemma put_links_assoc K y l :
  assoc K (fold_left put_link y l) = match assoc K l with Some v => Some v | None => assoc K y end.
Proof.
  revert l. induction y as [|[k v] t IH]; intros l; cbn [fold_left].
  - cbn. destruct (assoc K l); auto.
  - rewrite IH. unfold put_link. cbn [fst assoc]. destruct (assoc k l) eqn:E.
    + destruct (assoc K l) eqn:E'; auto. destruct (String.eqb_spec K k) as [->|]; auto. congruence.
    + cbn. destruct (String.eqb_spec K k) as [->|]; auto. now rewrite E.
Qed.

Definition emit (w : write) (v : val) (r : result link)
  : result (list (string * attr) * list (string * link)) :=
  if w_opt w && (match v with VNone => true | _ => false end) then Ok ([], [])
  else
    match w_kind w, v with
    | WInt, VInt z => if in_int64 z then Ok ([(w_key w, AInt z)], []) else Raise OverflowError
    | WInt, VFloat f =>
        match trunc f with
        | Some z => if in_int64 z then Ok ([(w_key w, AInt z)], []) else Raise OverflowError
        | None => Raise (match f with S754_nan => ValueError | _ => OverflowError end)
        end
    | WInt, _ => Raise TypeError
    | WFloat, VFloat f => Ok ([(w_key w, AFloat f)], [])
    | WFloat, VInt z => Ok ([(w_key w, AFloat (of_Z z))], [])
    | WFloat, VNone => Ok ([(w_key w, AFloat S754_nan)], [])
    | WFloat, _ => Raise TypeError
    | WStr, VStr s => Ok ([(w_key w, AStr s)], [])
    | WStr, _ => Raise TypeError
    | WRange, VNone => Ok ([], [])
    | WRange, VPair a b =>
        Ok ([(w_key w ++ "_min", AFloat a); (w_key w ++ "_max", AFloat b)], [])
    | WRange, VFloat f => Ok ([(w_key w, AFloat f)], [])
    | WRange, _ => Raise ValueError
    | WArr c, VArr d s x =>
        Ok ([], [(w_key w, LArr (match c with Some d' => d' | None => d end) s x)])
    | WArr _, _ => Raise AttributeError
    | WObj, VObj _ _ => do l <- r; Ok ([], [(w_key w, l)])
    | WObj, _ => Raise RuntimeError
    | WSeq, VSeq _ => do l <- r; Ok ([], [(w_key w, l)])
    | WSeq, _ => Raise TypeError
    end.
Definition resolve (e : env) (w : write) : option (val * result link) :=
  match assoc (w_field w) e with
  | None => None
  | Some vr0 => match fst vr0, w_alt w with VNone, Some g => assoc g e | _, _ => Some vr0 end
  end.
Lemma effect_emit e w :
  effect e w = match resolve e w with None => Raise AttributeError | Some (v, r) => emit w v r end.
Proof.
  unfold effect, resolve. destruct (assoc (w_field w) e) as [vr|]; auto.
Qed.

Lemma emit_keys w v r x y : emit w v r = Ok (x, y) ->
  (forall K, ~ In K (attr_keys w) -> assoc K (rev x) = None) /\
  (forall K, ~ In K (link_keys w) -> assoc K y = None).
Proof.
  assert (E1 : forall K k (a : attr), K <> k -> assoc K [(k, a)] = None).
  { intros K k a N. cbn. destruct (String.eqb_spec K k); congruence. }
  assert (E2 : forall K k (a : link), K <> k -> assoc K [(k, a)] = None).
  { intros K k a N. cbn. destruct (String.eqb_spec K k); congruence. }
  unfold emit, attr_keys, link_keys.
  destruct (w_opt w && _); [intros [= <- <-]; split; auto|].
  destruct (w_kind w), v; intros H;
    repeat match type of H with
           | context [match trunc ?f with _ => _ end] => destruct (trunc f)
           | context [if in_int64 ?z then _ else _] => destruct (in_int64 z)
           | context [bind ?r _] => destruct r; cbn [bind] in H
           end; try discriminate H; injection H as <- <-; split; intros K N; cbn [rev app] in *;
    try reflexivity; cbn [In] in N; try (apply E1; intros ->; tauto); try (apply E2; intros ->; tauto).
  cbn. destruct (String.eqb_spec K (w_key w ++ "_max")) as [->|]; [tauto|].
  destruct (String.eqb_spec K (w_key w ++ "_min")) as [->|]; [tauto|]. reflexivity.
Qed.

Definition emitted (e : env) (w : write) : list (string * attr) * list (string * link) :=
  match effect e w with Ok p => p | Raise _ => ([], []) end.

Lemma run_writes_spec e ws : (forall w, In w ws -> exists p, effect e w = Ok p) ->
  forall a l, exists a' l', run_writes e ws a l = Ok (a', l') /\
  (forall K, (forall w, In w ws -> ~ In K (attr_keys w)) -> assoc K a' = assoc K a) /\
  (forall K, (forall w, In w ws -> ~ In K (link_keys w)) -> assoc K l' = assoc K l) /\
  (forall K w0, In w0 ws -> (forall w, In w ws -> w = w0 \/ ~ In K (attr_keys w)) ->
     assoc K a' = match assoc K (rev (fst (emitted e w0))) with Some v => Some v | None => assoc K a end) /\
  (forall K w0, In w0 ws -> (forall w, In w ws -> w = w0 \/ ~ In K (link_keys w)) ->
     assoc K l' = match assoc K l with Some v => Some v | None => assoc K (snd (emitted e w0)) end).
Proof.
  induction ws as [|w t IH]; intros Hok a l.
  - exists a, l. cbn. repeat split; auto; intros; tauto.
  - destruct (Hok w (or_introl eq_refl)) as [[x y] Hw].
    assert (Hk := Hw). rewrite effect_emit in Hk.
    destruct (resolve e w) as [[v r]|]; [|discriminate]. apply emit_keys in Hk as [Kx Ky].
    assert (Hem : emitted e w = (x, y)) by (unfold emitted; now rewrite Hw).
    destruct (IH (fun w' I => Hok w' (or_intror I)) (fold_left put_attr x a) (fold_left put_link y l))
      as (a' & l' & R & N1 & N2 & S1 & S2).
    exists a', l'. cbn [run_writes]. rewrite Hw. cbn [bind]. split; [exact R|].
    assert (X : forall K, ~ In K (attr_keys w) -> assoc K (fold_left put_attr x a) = assoc K a).
    { intros K N. rewrite put_attrs, assoc_app, Kx; auto. }
    assert (Y : forall K, ~ In K (link_keys w) -> assoc K (fold_left put_link y l) = assoc K l).
    { intros K N. rewrite put_links_assoc, Ky; auto. destruct (assoc K l); auto. }
    repeat split.
    + intros K N. rewrite N1 by (intros; apply N; cbn; auto). apply X, N. cbn; auto.
    + intros K N. rewrite N2 by (intros; apply N; cbn; auto). apply Y, N. cbn; auto.
    + intros K w0 I U.
      destruct (in_dec write_dec w0 t) as [I'|I'].
      * rewrite (S1 K w0 I') by (intros; apply U; cbn; auto).
        destruct (assoc K (rev (fst (emitted e w0)))) eqn:E; auto.
        destruct (U w (or_introl eq_refl)) as [->|N]; [|now apply X].
        rewrite put_attrs, assoc_app. rewrite Hem in E. cbn in E. now rewrite E.
      * destruct I as [->|I]; [|tauto]. rewrite Hem. cbn [fst].
        rewrite N1, put_attrs, assoc_app; auto.
        intros w' I. destruct (U w' (or_intror I)) as [->|N]; auto.
    + intros K w0 I U.
      destruct (in_dec write_dec w0 t) as [I'|I'].
      * rewrite (S2 K w0 I') by (intros; apply U; cbn; auto).
        destruct (U w (or_introl eq_refl)) as [->|N]; [|now rewrite Y].
        rewrite put_links_assoc, Hem. cbn. destruct (assoc K l); auto. destruct (assoc K y); auto.
      * destruct I as [->|I]; [|tauto]. rewrite Hem. cbn [snd].
        rewrite N2, put_links_assoc; auto.
        intros w' I. destruct (U w' (or_intror I)) as [->|N]; auto.
Qed.

(** ** Sequences *)
Lemma collect_map {A B} (g : A -> result B) h l :
  (forall a, In a l -> g a = Ok (h a)) -> collect (map g l) = Ok (map h l).
Proof.
  induction l as [|a t IH]; intros H; cbn; auto. rewrite H by (cbn; auto). cbn.
  rewrite IH by (intros; apply H; cbn; auto). reflexivity.
Qed.

Lemma app_eqb_r s a b : String.eqb (s ++ a) (s ++ b) = String.eqb a b.
Proof. induction s as [|c s IH]; cbn; auto. now rewrite Ascii.eqb_refl. Qed.
Lemma key_suffix s a : a <> "" -> String.eqb s (s ++ a) = false.
Proof.
  intros N. induction s as [|c s IH]; cbn; [destruct a; auto; congruence|].
  now rewrite Ascii.eqb_refl.
Qed.
Lemma key_min s : String.eqb s (s ++ "_min") = false.
Proof. now apply key_suffix. Qed.
Lemma key_max s : String.eqb s (s ++ "_max") = false.
Proof. now apply key_suffix. Qed.
Lemma min_max s : String.eqb (s ++ "_min") (s ++ "_max") = false.
Proof. now rewrite app_eqb_r. Qed.
Lemma find_read_in rs r : NoDup (map r_field rs) -> In r rs -> find_read rs (r_field r) = Some r.
Proof.
  induction rs as [|r' t IH]; cbn; [tauto|]. intros N [->|I]; inversion N as [|? ? N1 N2]; subst.
  - now rewrite String.eqb_refl.
  - destruct (String.eqb_spec (r_field r') (r_field r)) as [E|E]; auto.
    exfalso. apply N1. rewrite E. now apply in_map.
Qed.
Lemma assoc_reads (g : string -> val) f rs :
  assoc f (map (fun r => (r_field r, g (r_field r))) rs)
  = match find_read rs f with Some _ => Some (g f) | None => None end.
Proof.
  induction rs as [|r t IH]; cbn; auto. rewrite String.eqb_sym.
  destruct (String.eqb_spec (r_field r) f) as [->|]; auto.
Qed.

(** ** Well typed fields *)
Opaque fate_of table.
Section Table.
  Variable tbl : list schema.
  Hypothesis names_ok : forall k, In k tbl -> s_registered k = true ->
    s_name k <> "BitErrorEvaluator" -> check_class k = true.

  Definition typed (fs : list (string * val)) (ts : list (string * ty)) : Prop :=
    Forall2 (fun p q => fst p = fst q /\ has_ty (snd q) (snd p) (wt tbl (snd p)) = true) fs ts.
  Lemma fields_ok_typed fs ts :
    fields_ok (map (fun p => (fst p, (snd p, wt tbl (snd p)))) fs) ts = true <-> typed fs ts.
  Proof.
    revert ts. induction fs as [|[f v] fs IH]; intros [|[g t] ts]; cbn; split; intros H;
      try discriminate; try constructor; try (inversion H; fail); auto.
    - apply andb_prop in H as [H1 H2]. apply andb_prop in H1 as [H0 H1].
      apply String.eqb_eq in H0. cbn. auto.
    - apply andb_prop in H as [H1 H2]. now apply IH.
    - inversion H as [|? ? ? ? [E1 E2] E3]; subst. cbn in *. subst.
      rewrite String.eqb_refl, E2. cbn. now apply IH.
  Qed.
  Lemma typed_names fs ts : typed fs ts -> map fst fs = map fst ts.
  Proof. induction 1 as [|p q fs ts [E _] _ IH]; cbn; congruence. Qed.
  Lemma typed_assoc fs ts f t : typed fs ts -> assoc f ts = Some t ->
    exists v, assoc f fs = Some v /\ has_ty t v (wt tbl v) = true.
  Proof.
    induction 1 as [|[g v] [g' t'] fs ts [E W] _ IH]; cbn; [discriminate|]. cbn in E, W. subst g'.
    destruct (String.eqb f g); [intros [= <-]; eauto | auto].
  Qed.

  Definition nested (v : val) : Prop :=
    forall b, (wt tbl v (TObj b) = true ->
                 exists a l, save tbl v = Ok (LNode a l) /\ load tbl (LNode a l) b = Ok (restored v))
           /\ (wt tbl v (TSeq b) = true ->
                 exists ls, save tbl v = Ok (LSeq ls) /\ load tbl (LSeq ls) b = Ok (restored v)).

  (** A well typed value is written without an exception. *)
  Lemma emit_ok b w v : nested v -> wbase b (w_kind w) = true -> wt tbl v b = true ->
    exists p, emit w v (save tbl v) = Ok p.
  Proof.
    intros IH B W. unfold emit. destruct (w_opt w && _); [eauto|].
    destruct b, (w_kind w); try discriminate B; destruct v; try discriminate W; cbn [wt] in W; eauto.
    - rewrite W. eauto.
    - apply orb_prop in W as [W|W]; apply Z.eqb_eq in W; subst; cbn; eauto.
    - destruct (trunc f) as [z|]; [|discriminate]. apply Z.eqb_eq in W. subst. cbn. eauto.
    - destruct (IH base) as [I _]. destruct (I W) as (a & l & -> & _). cbn. eauto.
    - destruct (IH base) as [_ I]. destruct (I W) as (ls & -> & _). cbn. eauto.
  Qed.
  Lemma wbase_not_none b q : wbase b q = true -> wt tbl VNone b = false.
  Proof. destruct b, q; cbn; auto; discriminate. Qed.

  (** ** One class *)
  Section Class.
    Variable k : schema.
    Variable fs : list (string * val).
    Hypothesis Hk : check_class k = true.
    Hypothesis Ht : typed fs (s_fields k).
    Hypothesis Hn : forall f v, assoc f fs = Some v -> nested v.
    Let e : env := map (fun p => (fst p, (snd p, save tbl (snd p)))) fs.
    Let rs := map (fun p => (fst p, restored (snd p))) fs.

    Lemma e_assoc f : assoc f e = option_map (fun v => (v, save tbl v)) (assoc f fs).
    Proof. exact (assoc_map (fun v => (v, save tbl v)) f fs). Qed.
    Lemma rs_assoc f : assoc f rs = option_map restored (assoc f fs).
    Proof. exact (assoc_map restored f fs). Qed.

    Lemma class_parts :
      NoDup (map fst (s_fields k)) /\ NoDup (map r_field (s_reads k)) /\
      (forall r, In r (s_reads k) -> In (r_field r) (map fst (s_fields k))) /\
      (forall ft, In ft (s_fields k) -> check_field k ft = true) /\
      (forall w, In w (s_writes k) -> check_write k w = true).
    Proof.
      unfold check_class in Hk. repeat (apply andb_prop in Hk as [Hk ?]).
      repeat split; auto using nodup_NoDup.
      - intros r I. rewrite forallb_forall in H1. apply H1 in I. apply existsb_exists in I as (f & I & E).
        apply String.eqb_eq in E. congruence.
      - now apply forallb_forall.
      - now apply forallb_forall.
    Qed.

    (** The value a call sees. *)
    Lemma resolve_field w t v : assoc (w_field w) (s_fields k) = Some t ->
      assoc (w_field w) fs = Some v -> has_ty t v (wt tbl v) = true -> writable (s_fields k) t w = true ->
      (v <> VNone \/ w_alt w = None) /\ resolve e w = Some (v, save tbl v)
      \/ v = VNone /\ exists b g f, t = Opt b /\ w_alt w = Some g /\ w_kind w = WFloat /\ w_opt w = false /\
           assoc g fs = Some (VFloat f) /\ resolve e w = Some (VFloat f, save tbl (VFloat f)).
    Proof.
      intros T A W Wr. unfold resolve. rewrite e_assoc, A. cbn [option_map fst].
      destruct (w_alt w) as [g|] eqn:Ea.
      2:{ left. split; auto. now destruct v. }
      destruct v; try (left; split; [left; discriminate | reflexivity]).
      right. split; auto. destruct t as [b|b]; cbn [has_ty writable] in W, Wr.
      - rewrite (wbase_not_none _ _ Wr) in W. discriminate.
      - rewrite Ea in Wr. apply andb_prop in Wr as [Wb Wr].
        destruct (w_kind w); try discriminate Wr.
        destruct (assoc g (s_fields k)) as [[[]|]|] eqn:Eg; try discriminate Wr.
        destruct (typed_assoc _ _ _ _ Ht Eg) as (u & Au & Wu). cbn in Wu. destruct u; try discriminate Wu.
        exists b, g, f. rewrite e_assoc, Au. apply negb_true_iff in Wr. repeat split; auto.
    Qed.

    Lemma effects_ok : forall w, In w (s_writes k) -> exists p, effect e w = Ok p.
    Proof.
      intros w I. destruct class_parts as (_ & _ & _ & _ & Cw). specialize (Cw w I).
      unfold check_write in Cw. apply andb_prop in Cw as [_ Cw].
      destruct (assoc (w_field w) (s_fields k)) as [t|] eqn:T; [|discriminate].
      destruct (typed_assoc _ _ _ _ Ht T) as (v & A & W).
      rewrite effect_emit.
      destruct (resolve_field w t v T A W Cw) as [[Nv ->]|(-> & b & g & f & -> & Ea & Ek & Eo & Ag & ->)].
      - destruct t as [b|b]; cbn [has_ty writable] in W, Cw.
        + eapply emit_ok; eauto.
        + apply andb_prop in Cw as [Wb Cw]. apply orb_prop in W as [W|W].
          * destruct v; try discriminate W. destruct Nv as [Nv|Nv]; [congruence|]. rewrite Nv in Cw.
            unfold emit, nullable in *. destruct (w_opt w); cbn; eauto.
            destruct (w_kind w); try discriminate Cw; eauto.
          * eapply emit_ok; eauto.
      - unfold emit. rewrite Eo, Ek. cbn. eauto.
    Qed.

    (** ** Reading back *)
    Variables (a0 : list (string * attr)) (l0 : list (string * link)).
    Hypothesis Hrun : run_writes e (s_writes k) [] [] = Ok (a0, l0).
    Variable tag : attr.
    Let a := put_attr a0 ("type", tag).
    Let le : lenv := map (fun p => (fst p, (snd p, load tbl (snd p)))) l0.

    Lemma le_assoc K : assoc K le = option_map (fun x => (x, load tbl x)) (assoc K l0).
    Proof. exact (assoc_map (fun x => (x, load tbl x)) K l0). Qed.

    Lemma found w : In w (s_writes k) -> unique (s_writes k) w = true -> check_write k w = true ->
      (forall K, In K (attr_keys w) -> assoc K a = assoc K (rev (fst (emitted e w)))) /\
      (forall K, In K (link_keys w) -> assoc K l0 = assoc K (snd (emitted e w))).
    Proof.
      intros I U C. destruct (run_writes_spec e (s_writes k) effects_ok [] []) as (a' & l' & R & _ & _ & S1 & S2).
      rewrite Hrun in R. injection R as <- <-. unfold unique in U. rewrite forallb_forall in U.
      split; intros K IK.
      - unfold check_write in C. apply andb_prop in C as [C _]. apply negb_true_iff, mem_in in C.
        unfold a, put_attr. cbn [assoc]. destruct (String.eqb_spec K "type") as [->|]; [tauto|].
        rewrite (S1 K w I).
        + destruct (assoc K (rev (fst (emitted e w)))); auto.
        + intros w' I'. specialize (U w' I'). apply orb_prop in U as [U|U]; [left; now apply dec_true in U|].
          right. apply andb_prop in U as [U _]. rewrite forallb_forall in U. apply U in IK.
          now apply negb_true_iff, mem_in in IK.
      - rewrite (S2 K w I); auto.
        intros w' I'. specialize (U w' I'). apply orb_prop in U as [U|U]; [left; now apply dec_true in U|].
        right. apply andb_prop in U as [_ U]. rewrite forallb_forall in U. apply U in IK.
        now apply negb_true_iff, mem_in in IK.
    Qed.
    Lemma not_found r : absent (s_writes k) r = true ->
      (forall K, In K (read_attr_keys r) -> assoc K a = None) /\
      (forall K, In K (read_link_keys r) -> assoc K l0 = None).
    Proof.
      unfold absent. intros U. apply andb_prop in U as [T U]. apply negb_true_iff, mem_in in T.
      rewrite forallb_forall in U.
      destruct (run_writes_spec e (s_writes k) effects_ok [] []) as (a' & l' & R & N1 & N2 & _).
      rewrite Hrun in R. injection R as <- <-. split; intros K IK.
      - unfold a, put_attr. cbn [assoc]. destruct (String.eqb_spec K "type") as [->|]; [tauto|].
        rewrite N1; auto. intros w I. specialize (U w I). apply andb_prop in U as [U _].
        rewrite forallb_forall in U. apply U in IK. now apply negb_true_iff, mem_in in IK.
      - rewrite N2; auto. intros w I. specialize (U w I). apply andb_prop in U as [_ U].
        rewrite forallb_forall in U. apply U in IK. now apply negb_true_iff, mem_in in IK.
    Qed.

    (** A value that was written is read back. *)
    Lemma read_base b w r x v : nested v ->
      wt tbl v b = true -> rbase b (w_kind w) (r_kind r) x = true -> r_key r = w_key w ->
      (exists p, emit w v (save tbl v) = Ok p /\
        (forall K, In K (attr_keys w) -> assoc K a = assoc K (rev (fst p))) /\
        (forall K, In K (link_keys w) -> assoc K l0 = assoc K (snd p))) ->
      run_read a le r = Ok (suffer x (restored v) rs).
    Proof.
      intros IH W B E (p & Em & Ha & Hl). unfold emit in Em. unfold run_read. unfold attr_keys, link_keys in *.
      rewrite E, ?le_assoc.
      assert (O : w_opt w && match v with VNone => true | _ => false end = false).
      { destruct v; rewrite ?andb_false_r; auto. destruct b, (w_kind w); discriminate. }
      rewrite O in Em. clear O.
      destruct b, (w_kind w) eqn:Ek, (r_kind r) eqn:Er; try discriminate B; destruct x as [|xd| |xg|xt]; try discriminate B;
        destruct v; try discriminate W; cbn [wt rbase] in W, B.
      - rewrite W in Em. injection Em as <-. rewrite Ha by (cbn; auto). cbn. now rewrite String.eqb_refl.
      - apply orb_prop in W as [W|W]; apply Z.eqb_eq in W; subst z; cbn [in_int64] in Em; cbn in Em;
          injection Em as <-; rewrite Ha by (cbn; auto); cbn; now rewrite String.eqb_refl.
      - injection Em as <-. rewrite Ha by (cbn; auto). cbn. now rewrite String.eqb_refl.
      - destruct (trunc f) as [z|]; [|discriminate]. apply Z.eqb_eq in W. subst z. cbn in Em. injection Em as <-.
        rewrite Ha by (cbn; auto). cbn. rewrite String.eqb_refl.
        destruct xd as [| |fz| | | | |]; try discriminate B. destruct fz as [[]| | |]; try discriminate B. reflexivity.
      - injection Em as <-. rewrite Ha by (cbn; auto). cbn. now rewrite String.eqb_refl.
      - injection Em as <-. rewrite Ha by (cbn; auto). cbn. now rewrite String.eqb_refl.
      - injection Em as <-. rewrite !Ha by (cbn; auto). cbn [fst rev app assoc].
        rewrite key_max, key_min, min_max, !String.eqb_refl. reflexivity.
      - apply dtype_eqb_eq in W, B. subst. injection Em as <-. rewrite Hl by (cbn; auto). cbn.
        now rewrite String.eqb_refl.
      - apply dtype_eqb_eq in B. subst. injection Em as <-. rewrite Hl by (cbn; auto). cbn.
        now rewrite String.eqb_refl.
      - apply String.eqb_eq in B. subst. destruct (IH base0) as [I _]. destruct (I W) as (a1 & l1 & S1 & L1).
        rewrite S1 in Em. cbn [bind] in Em. injection Em as <-. rewrite Hl by (cbn; auto).
        cbn [snd assoc option_map]. rewrite String.eqb_refl. cbn [option_map]. exact L1.
      - apply String.eqb_eq in B. subst. destruct (IH base0) as [_ I]. destruct (I W) as (ls & S1 & L1).
        rewrite S1 in Em. cbn [bind] in Em. injection Em as <-. rewrite Hl by (cbn; auto).
        cbn [snd assoc option_map]. rewrite String.eqb_refl. cbn [option_map]. exact L1.
    Qed.

    Lemma read_default r x v : absent (s_writes k) r = true -> default_read r x = true ->
      run_read a le r = Ok (suffer x v rs).
    Proof.
      intros A D. apply not_found in A as [Na Nl]. unfold default_read in D. unfold run_read, missing.
      unfold read_attr_keys, read_link_keys in *.
      assert (Rd : forall d, resets x d = true -> suffer x v rs = d).
      { intros d R. destruct x; try discriminate R. apply val_eqb_eq in R. now subst. }
      destruct (r_kind r); rewrite ?le_assoc, ?Na, ?Nl by (cbn; auto); cbn [option_map];
        try (destruct (r_def r) as [dv|]; [|discriminate]; apply Rd in D; now rewrite D).
      apply Rd in D. now rewrite D.
    Qed.

    Lemma read_ok r v : In r (s_reads k) -> assoc (r_field r) fs = Some v ->
      run_read a le r = Ok (suffer (fate_of (s_name k) (r_field r)) (restored v) rs).
    Proof.
      intros I A. destruct class_parts as (Nf & Nr & Df & Cf & Cw).
      assert (T : exists t, In (r_field r, t) (s_fields k)).
      { apply Df, in_map_iff in I as ([f t] & E & I'). cbn in E. subst. eauto. }
      destruct T as [t T]. pose proof (Cf _ T) as C. apply in_assoc in T; auto.
      destruct (typed_assoc _ _ _ _ Ht T) as (v' & A' & W). rewrite A in A'. injection A' as <-.
      unfold check_field in C. cbn [fst snd] in C. rewrite (find_read_in _ _ Nr I) in C.
      apply orb_prop in C as [C|C].
      2:{ apply andb_prop in C as [C1 C2]. now apply read_default. }
      apply existsb_exists in C as (w & Iw & C). apply andb_prop in C as [C U]. apply andb_prop in C as [C R].
      apply String.eqb_eq in C. pose proof (Cw w Iw) as Cw'. destruct (found w Iw U Cw') as [Fa Fl].
      unfold check_write in Cw'. apply andb_prop in Cw' as [_ Wr]. rewrite C, T in Wr.
      unfold readable in R. apply andb_prop in R as [Ek R]. apply String.eqb_eq in Ek.
      assert (Em : forall u s, resolve e w = Some (u, s) -> exists p, emit w u s = Ok p /\ emitted e w = p).
      { intros u s Rs. destruct (effects_ok w Iw) as [p P]. exists p. unfold emitted. rewrite P.
        rewrite effect_emit, Rs in P. auto. }
      rewrite <- C in T, A, R |- *.
      destruct (resolve_field w t v T A W Wr) as [[Nv Rs]|(-> & b & g & f & -> & Ea & Ekk & Eo & Ag & Rs)];
        destruct (Em _ _ Rs) as (p & P & Q); rewrite Q in Fa, Fl.
      - destruct t as [b|b]; cbn [has_ty writable] in W, Wr.
        + apply (read_base b w r _ v); [exact (Hn _ _ A) | exact W | exact R | exact Ek | exists p; auto].
        + apply andb_prop in Wr as [Wb Wr]. destruct (is_none v) eqn:Ev.
          * destruct v; try discriminate Ev. destruct Nv as [Nv|Nv]; [congruence|]. rewrite Nv in R, Wr.
            destruct (nullable w) eqn:Nu.
            -- repeat (apply andb_prop in R as [R ?]).
               unfold def_none in H1. destruct (r_def r) as [[]|] eqn:Ed; try discriminate H1.
               unfold is_kept in H0. destruct (fate_of (s_name k) (w_field w)) eqn:Ef; try discriminate H0.
               assert (p = ([], [])) as ->.
               { unfold emit, nullable in *. destruct (w_opt w); cbn in P; [congruence|].
                 destruct (w_kind w); try discriminate Nu. congruence. }
               unfold run_read, missing. rewrite Ed, Ek, ?le_assoc. unfold attr_keys, link_keys in *.
               destruct b, (w_kind w), (r_kind r); try discriminate R; try discriminate H;
                 rewrite ?Fa, ?Fl by (cbn; auto); reflexivity.
            -- destruct b, (w_kind w) eqn:Ewk, (r_kind r) eqn:Erk; try discriminate R.
               destruct (fate_of (s_name k) (w_field w)); try discriminate R.
               unfold emit, nullable in *. destruct (w_opt w); [discriminate|]. rewrite Ewk in P. cbn in P.
               injection P as <-. unfold run_read. rewrite Erk, Ek. unfold attr_keys in Fa. rewrite Ewk in Fa.
               rewrite Fa by (cbn; auto). cbn. now rewrite String.eqb_refl.
          * cbn in W.
            destruct (w_alt w) eqn:Ea.
            { destruct b, (w_kind w) eqn:Ewk, (r_kind r) eqn:Erk; try discriminate R.
              destruct (fate_of (s_name k) (w_field w)); try discriminate R.
              destruct v; try discriminate W. unfold emit in P. rewrite Ewk, andb_false_r in P.
              injection P as <-. unfold run_read. rewrite Erk, Ek. unfold attr_keys in Fa. rewrite Ewk in Fa.
              rewrite Fa by (cbn; auto). cbn. now rewrite String.eqb_refl. }
            destruct (nullable w) eqn:Nu.
            { repeat (apply andb_prop in R as [R ?]). apply (read_base b w r _ v); [exact (Hn _ _ A) | exact W | exact R | exact Ek | exists p; auto]. }
            { destruct b, (w_kind w) eqn:Ewk, (r_kind r) eqn:Erk; try discriminate R.
              destruct (fate_of (s_name k) (w_field w)); try discriminate R.
              destruct v; try discriminate W. unfold emit in P. rewrite Ewk, andb_false_r in P.
              injection P as <-. unfold run_read. rewrite Erk, Ek. unfold attr_keys in Fa. rewrite Ewk in Fa.
              rewrite Fa by (cbn; auto). cbn. now rewrite String.eqb_refl. }
      - rewrite Ea, Ekk in R. destruct b, (r_kind r) eqn:Erk; try discriminate R.
        destruct (fate_of (s_name k) (w_field w)) as [| | |g'|]; try discriminate R.
        apply String.eqb_eq in R. subst g'. unfold emit in P. rewrite Eo, Ekk in P. cbn in P.
        injection P as <-. unfold run_read. rewrite Erk, Ek. unfold attr_keys in Fa. rewrite Ekk in Fa.
        rewrite Fa by (cbn; auto). cbn [fst rev app assoc]. rewrite String.eqb_refl. cbn [restored suffer].
        now rewrite rs_assoc, Ag.
    Qed.

    Definition after (f : string) : val :=
      match assoc f fs with
      | Some v => suffer (fate_of (s_name k) f) (restored v) rs
      | None => VNone
      end.
    Lemma reads_ok : run_reads a le (s_reads k) = Ok (map (fun r => (r_field r, after (r_field r))) (s_reads k)).
    Proof.
      unfold run_reads. destruct class_parts as (Nf & Nr & Df & Cf & Cw).
      assert (G : forall l, incl l (s_reads k) ->
        mapM (fun r => do v <- run_read a le r; Ok (r_field r, v)) l
        = Ok (map (fun r => (r_field r, after (r_field r))) l)).
      { induction l as [|r t IH]; intros In_; cbn [mapM map]; auto.
        assert (I : In r (s_reads k)) by (apply In_; cbn; auto).
        assert (T : exists t, In (r_field r, t) (s_fields k)).
        { apply Df, in_map_iff in I as ([f t'] & E & I'). cbn in E. subst. eauto. }
        destruct T as [t' T]. apply in_assoc in T; auto.
        destruct (typed_assoc _ _ _ _ Ht T) as (v & A & _).
        rewrite (read_ok r v I A). cbn [bind]. rewrite IH by (intros x Hx; apply In_; cbn; auto).
        cbn [bind]. unfold after. now rewrite A. }
      apply G. apply incl_refl.
    Qed.
    Lemma constructed :
      construct k (map (fun r => (r_field r, after (r_field r))) (s_reads k))
      = map (fun p => (fst p, suffer (fate_of (s_name k) (fst p)) (snd p) rs)) rs.
    Proof.
      destruct class_parts as (Nf & Nr & Df & Cf & Cw).
      unfold construct.
      assert (Ef : forall p, In p fs -> assoc (fst p) fs = Some (snd p)).
      { intros [f v] I. cbn. apply in_assoc; auto. now rewrite (typed_names _ _ Ht). }
      transitivity (map (fun f => (f, after f)) (map fst (s_fields k))).
      - rewrite map_map. apply map_ext_in. intros [f t] I. cbn [fst]. f_equal.
        rewrite assoc_reads. pose proof (Cf _ I) as C. unfold check_field in C. cbn [fst snd] in C.
        destruct (find_read (s_reads k) f) as [r|] eqn:F; auto.
        apply in_assoc in I; auto. destruct (typed_assoc _ _ _ _ Ht I) as (v & A & _).
        assert (Rd : forall d, resets (fate_of (s_name k) f) d = true -> d = after f).
        { intros d R. unfold after. rewrite A. destruct (fate_of (s_name k) f); try discriminate R.
          apply val_eqb_eq in R. now subst. }
        destruct (assoc f (s_init k)); now apply Rd.
      - rewrite <- (typed_names _ _ Ht). unfold rs at 2. rewrite !map_map. apply map_ext_in.
        intros p I. cbn [fst snd]. f_equal. unfold after. now rewrite (Ef p I).
    Qed.
  End Class.

  Definition restored_fields (c : string) (fs : list (string * val)) : list (string * val) :=
    let rs := map (fun p => (fst p, restored (snd p))) fs in
    map (fun p => (fst p, suffer (fate_of c (fst p)) (snd p) rs)) rs.
  Lemma restored_obj c fs : restored (VObj c fs) = VObj c (restored_fields c fs).
  Proof. reflexivity. Qed.
  Lemma restored_assoc c fs f : assoc f (restored_fields c fs) =
    option_map (fun v => suffer (fate_of c f) (restored v) (map (fun p => (fst p, restored (snd p))) fs)) (assoc f fs).
  Proof.
    unfold restored_fields. cbv zeta. rewrite map_map. cbn [fst snd].
    generalize (map (fun p => (fst p, restored (snd p))) fs) as rs. intros rs.
    induction fs as [|[g v] t IH]; cbn; auto. destruct (String.eqb_spec f g) as [->|]; auto.
  Qed.

  Hypothesis checks_ok : forall k fs, In k tbl -> s_registered k = true ->
    loadable (s_name k) fs = true -> typed fs (s_fields k) ->
    match s_check k with Some g => g (restored_fields (s_name k) fs) = None | None => True end.

  Lemma find_class_spec c k : find_class tbl c = Some k -> In k tbl /\ s_name k = c.
  Proof.
    unfold find_class. intros F. apply find_some in F as [I E]. apply String.eqb_eq in E. auto.
  Qed.
  Lemma loadable_name c fs : loadable c fs = true -> c <> "BitErrorEvaluator".
  Proof. intros L ->. discriminate L. Qed.

  Lemma wt_obj c fs b : wt tbl (VObj c fs) (TObj b) = true <->
    exists k, find_class tbl c = Some k /\ s_registered k = true /\ is_sub k b = true /\
      loadable c fs = true /\ typed fs (s_fields k).
  Proof.
    cbn [wt]. destruct (find_class tbl c) as [k|].
    - rewrite !andb_true_iff. split.
      + intros [[[H1 H2] H3] H4]. exists k. rewrite fields_ok_typed in H4. auto.
      + intros (k' & [= <-] & H1 & H2 & H3 & H4). rewrite fields_ok_typed. auto.
    - split; [discriminate|]. intros (k & ? & _). discriminate.
  Qed.

  Theorem round_trip : forall v, nested v.
  Proof.
    induction v using val_ind'; intros b0; split; intros W; try discriminate W.
    - apply wt_obj in W as (k & F & Rg & Sb & L & T). pose proof (find_class_spec _ _ F) as [I <-].
      assert (Ck : check_class k = true) by eauto using loadable_name.
      assert (Hn : forall f v, assoc f fs = Some v -> nested v).
      { intros f v A. apply assoc_in in A. rewrite Forall_forall in H. exact (H _ A). }
      destruct (run_writes_spec _ _ (effects_ok k fs Ck T Hn) [] []) as (a0 & l0 & R & _).
      exists (put_attr a0 ("type", AStr (s_name k))), l0. split.
      + cbn [save]. rewrite F, Rg, R. reflexivity.
      + cbn [load]. unfold put_attr at 1. cbn [assoc]. rewrite String.eqb_refl, F, Rg, Sb. cbn [andb].
        rewrite (reads_ok k fs Ck T Hn a0 l0 R (AStr (s_name k))). cbn [bind].
        rewrite (constructed k fs Ck T). rewrite restored_obj.
        pose proof (checks_ok k fs I Rg L T) as C. unfold restored_fields in C |- *.
        destruct (s_check k); [now rewrite C | reflexivity].
    - cbn [wt] in W. rewrite forallb_forall in W. rewrite Forall_forall in H.
      assert (G : exists ls, collect (map (save tbl) l) = Ok ls /\
        collect (map (fun y => load tbl y b0) ls) = Ok (map restored l)).
      { induction l as [|v t IH]; [exists []; auto|].
        destruct (H v (or_introl eq_refl) b0) as [Hv _].
        destruct (Hv (W v (or_introl eq_refl))) as (a & lk & Sv & Lv).
        destruct IH as (ls & S1 & L1); [intros; apply H; cbn; auto | intros; apply W; cbn; auto |].
        exists (LNode a lk :: ls). split; cbn [map collect].
        - rewrite Sv. cbn [bind]. now rewrite S1.
        - rewrite Lv. cbn [bind]. now rewrite L1. }
      destruct G as (ls & S1 & L1). exists ls. split.
      + cbn [save]. now rewrite S1.
      + cbn [load]. now rewrite L1.
  Qed.

  (** ** The restored object is again one that may be stored *)
  Definition fate_typed (k : schema) (ft : string * ty) : bool :=
    match fate_of (s_name k) (fst ft) with
    | Kept => true
    | Reset d => has_ty (snd ft) d (wt tbl d)
    | NanIfNone => match snd ft with Opt TFloat => true | _ => false end
    | Frozen g => match snd ft, assoc g (s_fields k) with Opt TFloat, Some (Req TFloat) => true | _, _ => false end
    | Retyped d => match snd ft with Req TNum => dtype_eqb d Float64 | _ => false end
    end.
  Hypothesis fates_typed : forall k, In k tbl -> forallb (fate_typed k) (s_fields k) = true.
  Hypothesis loadable_restored : forall k fs, In k tbl -> typed fs (s_fields k) ->
    loadable (s_name k) fs = true -> loadable (s_name k) (restored_fields (s_name k) fs) = true.

  Lemma restored_none v : is_none (restored v) = is_none v.
  Proof. destruct v; reflexivity. Qed.

  Lemma wt_restored : forall v b, wt tbl v b = true -> wt tbl (restored v) b = true.
  Proof.
    induction v using val_ind'; intros b0 W; try exact W.
    - destruct b0; try discriminate W; [|reflexivity].
      rewrite restored_obj. apply wt_obj in W as (k & F & Rg & Sb & L & T).
      pose proof (find_class_spec _ _ F) as [I <-].
      apply wt_obj. exists k. repeat split; auto. pose proof (fates_typed k I) as Ft.
      rewrite forallb_forall in Ft.
      assert (G : forall fs0 ts, incl ts (s_fields k) -> Forall (fun p : string * val => forall b, wt tbl (snd p) b = true -> wt tbl (restored (snd p)) b = true) fs0 ->
        typed fs0 ts ->
        typed (map (fun p => (fst p, suffer (fate_of (s_name k) (fst p)) (snd p) (map (fun p => (fst p, restored (snd p))) fs)))
               (map (fun p => (fst p, restored (snd p))) fs0)) ts).
      { induction fs0 as [|[f v] fs0 IH]; intros ts Ic Fa Ty; inversion Ty as [|? [f' t] ? ts' [E1 E2] E3]; subst; [constructor|].
        cbn in E1. subst f'. inversion Fa as [|? ? Fv Fr]; subst. cbn [map].
        constructor; [|apply IH; auto; intros y Hy; apply Ic; cbn; auto].
        cbn [fst snd] in *. split; auto. pose proof (Ft (f, t) (Ic _ (or_introl eq_refl))) as Q.
        unfold fate_typed in Q. cbn [fst snd] in Q.
        assert (Kp : has_ty t (restored v) (wt tbl (restored v)) = true).
        { destruct t; cbn [has_ty] in *; [auto|]. rewrite restored_none. destruct (is_none v); auto.
          cbn in *. auto. }
        destruct (fate_of (s_name k) f) as [|d| |g|d]; cbn [suffer].
        - exact Kp.
        - exact Q.
        - destruct t as [|[]]; try discriminate Q. destruct (restored v) eqn:Er; exact Kp.
        - destruct t as [|[]]; try discriminate Q.
          destruct (assoc g (s_fields k)) as [[[]|]|] eqn:Eg; try discriminate Q.
          destruct (restored v) eqn:Er; try exact Kp.
          destruct (typed_assoc _ _ _ _ T Eg) as (u & Au & Wu). cbn [has_ty] in Wu.
          rewrite assoc_map, Au. cbn [option_map]. destruct u; try discriminate Wu. reflexivity.
        - destruct t as [[]|]; try discriminate Q. apply dtype_eqb_eq in Q. subst d.
          destruct (restored v) eqn:Er; try exact Kp. reflexivity. }
      apply (G fs (s_fields k)); auto using incl_refl.
    - destruct b0; try discriminate W; [|reflexivity]. cbn [restored wt] in *.
      rewrite forallb_forall in W |- *. rewrite Forall_forall in H.
      intros u I. apply in_map_iff in I as (x & <- & I). apply H; auto.
  Qed.
End Table.

(** ** A second round trip changes nothing *)
Lemma fate_in_spec t c f x : fate_in t c f = x -> x = Kept \/ In (c, f, x) t.
Proof.
  induction t as [|[[c' f'] y] t IH]; cbn; [auto|].
  destruct (String.eqb_spec c c') as [->|]; destruct (String.eqb_spec f f') as [->|]; cbn;
    intros E; try (destruct (IH E); auto); subst; auto.
Qed.
Definition fates_frozen : bool :=
  forallb (fun p => match snd p with Frozen g => is_kept (fate_of (fst (fst p)) g) | _ => true end) fates.
Lemma frozen_kept c f g : fate_of c f = Frozen g -> fate_of c g = Kept.
Proof.
  intros E. assert (A : fates_frozen = true) by (vm_compute; reflexivity).
  unfold fates_frozen in A. rewrite forallb_forall in A.
  destruct (fate_in_spec _ _ _ _ E) as [C|I]; [discriminate|].
  apply A in I. cbn in I. destruct (fate_of c g); try discriminate I. reflexivity.
Qed.
Lemma restored_twice : forall v, restored (restored v) = restored v.
Proof.
  induction v using val_ind'; try reflexivity.
  - rewrite !restored_obj. f_equal.
    set (rs := map (fun p => (fst p, restored (snd p))) fs).
    assert (Rf : restored_fields c fs = map (fun p => (fst p, suffer (fate_of c (fst p)) (snd p) rs)) rs) by reflexivity.
    assert (Hr : forall f v, assoc f rs = Some v -> restored v = v).
    { intros f v A. unfold rs in A. rewrite assoc_map in A. destruct (assoc f fs) as [u|] eqn:Au; [|discriminate].
      injection A as <-. apply assoc_in in Au. rewrite Forall_forall in H. exact (H _ Au). }
    assert (Hi : forall p, In p rs -> restored (snd p) = snd p).
    { intros p I. unfold rs in I. apply in_map_iff in I as (q & <- & I). cbn.
      rewrite Forall_forall in H. exact (H _ I). }
    clearbody rs. unfold restored_fields at 1.
    set (rs2 := map (fun p => (fst p, restored (snd p))) (restored_fields c fs)).
    assert (R2 : forall g, fate_of c g = Kept -> assoc g rs2 = assoc g rs).
    { intros g Kg. unfold rs2. rewrite assoc_map, Rf.
      assert (E : assoc g (map (fun p => (fst p, suffer (fate_of c (fst p)) (snd p) rs)) rs) = assoc g rs).
      { clear - Kg. generalize rs at 1 as ctx. intros ctx.
        induction rs as [|[f v] t IH]; cbn; [reflexivity|].
        destruct (String.eqb_spec g f) as [E|E]; auto. rewrite <- E, Kg. reflexivity. }
      rewrite E. destruct (assoc g rs) as [u|] eqn:Au; cbn; auto. f_equal. eauto. }
    assert (Goal_ : forall l, (forall p, In p l -> In p rs) ->
      map (fun p => (fst p, suffer (fate_of c (fst p)) (snd p) rs2))
        (map (fun p => (fst p, restored (snd p))) (map (fun p => (fst p, suffer (fate_of c (fst p)) (snd p) rs)) l))
      = map (fun p => (fst p, suffer (fate_of c (fst p)) (snd p) rs)) l).
    { induction l as [|[f v] t IH]; intros Il; cbn [map fst snd]; auto.
      f_equal; [|apply IH; intros; apply Il; cbn; auto]. f_equal.
      pose proof (Hi (f, v) (Il _ (or_introl eq_refl))) as Hv. cbn in Hv.
      destruct (fate_of c f) as [|d| |g|d] eqn:Ef; cbn [suffer]; auto.
      - destruct v; cbn [suffer] in *; rewrite ?Hv; reflexivity.
      - pose proof (frozen_kept _ _ _ Ef) as Kg. rewrite (R2 g Kg).
        destruct v; try (rewrite Hv; reflexivity).
        destruct (assoc g rs) as [u|] eqn:Au; [|reflexivity].
        rewrite (Hr g u Au). destruct u; reflexivity.
      - destruct v; cbn [suffer] in *; rewrite ?Hv; reflexivity. }
    unfold rs2 at 2 || idtac. rewrite Rf. apply Goal_. auto.
  - cbn. f_equal. rewrite map_map. apply map_ext_in. intros u I. rewrite Forall_forall in H. auto.
Qed.

(** ** The table *)
Transparent fate_of table.
Definition schema_ok (k : schema) : bool :=
  forallb (fate_typed table k) (s_fields k) &&
  (negb (s_registered k) || String.eqb (s_name k) "BitErrorEvaluator" || check_class k) &&
  match s_check k with
  | None => true
  | Some _ => mem (s_name k) ["MultipathFadingRealization"; "TDL"]
  end && match find_class table (s_name k) with Some k' => String.eqb (s_name k') (s_name k) | None => false end
  && Nat.eqb (List.length (filter (fun k' => String.eqb (s_name k') (s_name k)) table)) 1.
Lemma table_ok : forallb schema_ok table = true.
Proof. vm_compute. reflexivity. Qed.

Lemma table_at k : In k table -> schema_ok k = true.
Proof. pose proof table_ok as A. rewrite forallb_forall in A. auto. Qed.
Lemma table_names_ok k : In k table -> s_registered k = true -> s_name k <> "BitErrorEvaluator" ->
  check_class k = true.
Proof.
  intros I R N. apply table_at in I. unfold schema_ok in I. repeat (apply andb_prop in I as [I ?]).
  rewrite R in H2. cbn in H2. apply orb_prop in H2 as [E|E]; auto. apply String.eqb_eq in E. tauto.
Qed.
Lemma table_fates_typed k : In k table -> forallb (fate_typed table k) (s_fields k) = true.
Proof. intros I. apply table_at in I. unfold schema_ok in I. now repeat (apply andb_prop in I as [I ?]). Qed.

Lemma tdl_only k : In k table -> s_name k = "TDL" -> k = k_TDL.
Proof.
  intros I N. assert (F : In k (filter (fun k' => String.eqb (s_name k') "TDL") table)).
  { apply filter_In. split; auto. now rewrite N. }
  replace (filter (fun k' => String.eqb (s_name k') "TDL") table) with [k_TDL] in F by (vm_compute; reflexivity).
  destruct F as [F|[]]. auto.
Qed.
Lemma tdl_model fs : loadable "TDL" fs = true ->
  exists c f z, assoc "model_type" fs = Some (VObj c [(f, VInt z)]) /\ ((z =? 4) || (z =? 5))%Z = false.
Proof.
  unfold loadable. cbn [String.eqb Ascii.eqb eqb].
  destruct (assoc "model_type" fs) as [[]|]; try discriminate.
  destruct fields as [|[f []] []]; try discriminate. intros L. apply negb_true_iff in L. eauto 6.
Qed.
Lemma fate_tdl_model : fate_of "TDL" "model_type" = Kept.
Proof. reflexivity. Qed.
Lemma tdl_restored fs : typed table fs (s_fields k_TDL) -> loadable "TDL" fs = true ->
  exists c f z, assoc "model_type" (restored_fields "TDL" fs) = Some (VObj c [(f, VInt z)]) /\
    ((z =? 4) || (z =? 5))%Z = false.
Proof.
  intros T L. destruct (tdl_model fs L) as (c & f & z & Am & Hz). exists c, f, z. split; auto.
  rewrite restored_assoc, Am. cbn [option_map]. rewrite fate_tdl_model. cbn [suffer restored map fst snd].
  assert (Ty : wt table (VObj c [(f, VInt z)]) (TObj "TDLType") = true).
  { destruct (typed_assoc _ _ _ "model_type" (Req (TObj "TDLType")) T eq_refl) as (v & Av & Wv).
    rewrite Am in Av. injection Av as <-. exact Wv. }
  assert (Ef : fate_of c f = Kept); [|now rewrite Ef].
  apply wt_obj in Ty as (k & F & _ & Sb & _ & Tk). apply find_class_spec in F as [Ik <-].
  assert (Q : forallb (fun k => negb (is_sub k "TDLType")
      || forallb (fun p => is_kept (fate_of (s_name k) (fst p))) (s_fields k)) table = true)
    by (vm_compute; reflexivity).
  rewrite forallb_forall in Q. apply Q in Ik. rewrite Sb in Ik. cbn [negb orb] in Ik.
  inversion Tk as [|? [f' t'] ? ? [E1 _] _ Eq1 Eq2]; subst. cbn in E1. subst f'.
  rewrite <- Eq2 in Ik. cbn [forallb fst] in Ik. apply andb_prop in Ik as [Ik _].
  destruct (fate_of (s_name k) f); try discriminate Ik. reflexivity.
Qed.
Lemma table_checks_ok k fs : In k table -> s_registered k = true ->
  loadable (s_name k) fs = true -> typed table fs (s_fields k) ->
  match s_check k with Some g => g (restored_fields (s_name k) fs) = None | None => True end.
Proof.
  intros I R L T. destruct (s_check k) as [g|] eqn:Eg; auto.
  pose proof (table_at k I) as A. unfold schema_ok in A. repeat (apply andb_prop in A as [A ?]).
  rewrite Eg in H1. unfold mem in H1. cbn [existsb] in H1. rewrite orb_false_r in H1.
  apply orb_prop in H1 as [E|E]; apply String.eqb_eq in E.
  - rewrite E in L. discriminate L.
  - pose proof (tdl_only k I E) as ->. assert (g = tdl_check) as -> by (cbn in Eg; congruence).
    cbn [s_name k_TDL] in L |- *. destruct (tdl_restored fs T L) as (c & f & z & Am & Hz).
    unfold tdl_check. rewrite Am, Hz. destruct (assoc "los_doppler_frequency" _); auto.
Qed.
Lemma loadable_other c fs : c <> "TDL" -> loadable c fs =
  negb (String.eqb c "BitErrorEvaluator") && negb (String.eqb c "MultipathFadingRealization").
Proof.
  intros N. unfold loadable. destruct (String.eqb c "BitErrorEvaluator"); auto.
  destruct (String.eqb c "MultipathFadingRealization"); auto.
  destruct (String.eqb_spec c "TDL"); [tauto | reflexivity].
Qed.
Lemma table_loadable k fs : In k table -> typed table fs (s_fields k) ->
  loadable (s_name k) fs = true -> loadable (s_name k) (restored_fields (s_name k) fs) = true.
Proof.
  intros I T L. destruct (string_dec (s_name k) "TDL") as [E|N].
  - pose proof (tdl_only k I E) as ->. cbn [s_name k_TDL] in L |- *.
    destruct (tdl_restored fs T L) as (c & f & z & Am & Hz).
    unfold loadable. cbn [String.eqb Ascii.eqb eqb]. rewrite Am, Hz. reflexivity.
  - rewrite loadable_other in L |- *; auto.
Qed.

Lemma saved_and_loaded v b : holds b v ->
  exists l, save table v = Ok l /\ load table l b = Ok (restored v).
Proof.
  intros W. destruct (round_trip table table_names_ok table_checks_ok v b) as [H _].
  destruct (H W) as (a & l & S & L). eauto.
Qed.
Lemma holds_restored v b : holds b v -> holds b (restored v).
Proof. apply wt_restored; [exact table_fates_typed | exact table_loadable]. Qed.
Lemma untouched_restored : forall v, untouched v = true -> restored v = v.
Proof.
  induction v using val_ind'; intros U; try reflexivity.
  - rewrite restored_obj. f_equal. unfold restored_fields. cbv zeta. rewrite map_map. cbn [fst snd].
    cbn [untouched] in U. rewrite forallb_forall in U. rewrite Forall_forall in H.
    rewrite <- map_id. apply map_ext_in. intros [f u] I. cbn [fst snd].
    pose proof (U _ I) as E. cbn [fst snd] in E. apply andb_prop in E as [E1 E2].
    destruct (fate_of c f); try discriminate E1. cbn [suffer]. f_equal. exact (H _ I E2).
  - cbn [restored]. f_equal. rewrite <- map_id. apply map_ext_in. intros u I.
    cbn in U. rewrite forallb_forall in U. rewrite Forall_forall in H. auto.
Qed.

(** ** Objects that cannot be saved or loaded *)
Lemma well_formed_typed c fs : well_formed c fs ->
  exists k, find_class table c = Some k /\ typed table fs (s_fields k).
Proof.
  unfold well_formed. destruct (find_class table c) as [k|]; [|tauto].
  intros W. exists k. split; auto. now apply fields_ok_typed.
Qed.
Lemma nested_all v : nested table v.
Proof. exact (round_trip table table_names_ok table_checks_ok v). Qed.

Lemma evaluator_not_saved fs : well_formed "BitErrorEvaluator" fs ->
  save table (VObj "BitErrorEvaluator" fs) = Raise AttributeError.
Proof.
  intros W. apply well_formed_typed in W as (k & F & T).
  assert (k = k_BitErrorEvaluator) as -> by (vm_compute in F; injection F as <-; reflexivity).
  inversion T as [|[f1 v1] ? fs1 ? [E1 W1] T1]; subst. inversion T1 as [|[f2 v2] ? fs2 ? [E2 W2] T2]; subst.
  inversion T2; subst. cbn [fst snd has_ty] in *. subst.
  destruct (nested_all v1 "TransmittingModem") as [N1 _]. destruct (N1 W1) as (a1 & l1 & S1 & _).
  destruct (nested_all v2 "ReceivingModem") as [N2 _]. destruct (N2 W2) as (a2 & l2 & S2 & _).
  cbn [save]. rewrite F. cbn [s_registered k_BitErrorEvaluator s_writes map fst snd]. rewrite S1, S2.
  destruct v1; try discriminate W1. destruct v2; try discriminate W2. reflexivity.
Qed.

Lemma tdl_not_loaded fs c f z : well_formed "TDL" fs ->
  assoc "model_type" fs = Some (VObj c [(f, VInt z)]) -> z = 4%Z \/ z = 5%Z ->
  exists file, save table (VObj "TDL" fs) = Ok file /\ load table file "Channel" = Raise ValueError.
Proof.
  intros W Am Hz. apply well_formed_typed in W as (k & F & T).
  assert (I : In k table) by (unfold find_class in F; now apply find_some in F).
  assert (N : s_name k = "TDL") by (unfold find_class in F; apply find_some in F as [_ F]; now apply String.eqb_eq in F).
  pose proof (tdl_only k I N) as ->.
  assert (Ck : check_class k_TDL = true) by (vm_compute; reflexivity).
  assert (Hn : forall f v, assoc f fs = Some v -> nested table v) by (intros; apply nested_all).
  destruct (run_writes_spec _ _ (effects_ok table k_TDL fs Ck T Hn) [] []) as (a0 & l0 & R & _).
  exists (LNode (put_attr a0 ("type", AStr "TDL")) l0). split.
  - cbn [save]. rewrite F. change (s_registered k_TDL) with true. cbn [s_registered]. rewrite R. reflexivity.
  - cbn [load]. unfold put_attr at 1. cbn [assoc]. rewrite String.eqb_refl, F.
    change (s_registered k_TDL && is_sub k_TDL "Channel") with true. cbv iota.
    rewrite (reads_ok table k_TDL fs Ck T Hn a0 l0 R (AStr "TDL")). cbn [bind].
    rewrite (constructed table k_TDL fs Ck T).
    change (s_check k_TDL) with (Some tdl_check). change (s_name k_TDL) with "TDL".
    fold (restored_fields "TDL" fs). cbv iota beta.
    enough (tdl_check (restored_fields "TDL" fs) = Some ValueError) as -> by reflexivity.
    assert (Ef : fate_of c f = Kept).
    { destruct (typed_assoc _ _ _ "model_type" (Req (TObj "TDLType")) T eq_refl) as (v & Av & Wv).
      rewrite Am in Av. injection Av as <-. cbn [has_ty] in Wv.
      apply wt_obj in Wv as (k & Fk & _ & Sb & _ & Tk). apply find_class_spec in Fk as [Ik <-].
      assert (Q : forallb (fun k => negb (is_sub k "TDLType")
          || forallb (fun p => is_kept (fate_of (s_name k) (fst p))) (s_fields k)) table = true)
        by (vm_compute; reflexivity).
      rewrite forallb_forall in Q. apply Q in Ik. rewrite Sb in Ik. cbn [negb orb] in Ik.
      inversion Tk as [|? [f' t'] ? ? [E1 _] _ Eq1 Eq2]; subst. cbn in E1. subst f'.
      rewrite <- Eq2 in Ik. cbn [forallb fst] in Ik. apply andb_prop in Ik as [Ik _].
      destruct (fate_of (s_name k) f); try discriminate Ik. reflexivity. }
    destruct (typed_assoc _ _ _ "los_doppler_frequency" (Opt TFloat) T eq_refl) as (u & Au & Wu).
    destruct (typed_assoc _ _ _ "doppler_frequency" (Req TFloat) T eq_refl) as (d & Ad & Wd).
    cbn [has_ty] in Wd, Wu. destruct d; try discriminate Wd.
    unfold tdl_check. rewrite !restored_assoc, Am, Au. cbn [option_map]. rewrite fate_tdl_model.
    cbn [suffer restored map fst snd]. rewrite Ef. cbn [suffer].
    assert (((z =? 4) || (z =? 5))%Z = true) as -> by (destruct Hz; subst; reflexivity).
    change (fate_of "TDL" "los_doppler_frequency") with (Frozen "doppler_frequency"). cbn [suffer].
    rewrite assoc_map, Ad. cbn [option_map restored]. destruct u; try discriminate Wu; reflexivity.
Qed.

Lemma realization_not_loaded fs file b :
  save table (VObj "MultipathFadingRealization" fs) = Ok file -> exists ex, load table file b = Raise ex.
Proof.
  cbn [save]. destruct (find_class table "MultipathFadingRealization") as [k|] eqn:F; [|discriminate].
  assert (k = k_MultipathFadingRealization) as -> by (vm_compute in F; injection F as <-; reflexivity).
  destruct (s_registered _); [|discriminate].
  destruct (run_writes _ _ [] []) as [[a l]|]; cbn [bind]; [|discriminate]. intros [= <-].
  cbn [load]. unfold put_attr at 1. cbn [assoc]. rewrite String.eqb_refl, F.
  destruct (s_registered _ && is_sub _ b); [|eauto].
  destruct (run_reads _ _ _); cbn [bind]; [|eauto].
  change (s_check k_MultipathFadingRealization) with (Some (fun _ : list (string * val) => Some TypeError)).
  cbv iota beta. eauto.
Qed.

Lemma external_code_not_loaded c : In c
    ["LDPCCoding"; "BCHCoding"; "ReedSolomonCoding"; "RSCCoding"; "TurboCoding"; "PolarSCCoding"; "PolarSCLCoding"] ->
  forall a l before after, exists ex,
    load table (LSeq (before ++ LNode (("type", AStr c) :: a) l :: after)) "Encoder" = Raise ex.
Proof.
  intros I a l before after. cbn [load].
  assert (E : load table (LNode (("type", AStr c) :: a) l) "Encoder" = Raise RuntimeError).
  { assert (Q : match find_class table c with Some k => s_registered k && is_sub k "Encoder" | None => false end = false).
    { repeat (destruct I as [<-|I]; [reflexivity|]). destruct I. }
    cbn [load assoc]. rewrite String.eqb_refl. destruct (find_class table c) as [k|]; auto. now rewrite Q. }
  assert (G : exists ex, collect (map (fun y => load table y "Encoder") (before ++ LNode (("type", AStr c) :: a) l :: after)) = Raise ex).
  { induction before as [|y t [ex IH]]; cbn [app map collect].
    - rewrite E. cbn. eauto.
    - destruct (load table y "Encoder"); cbn [bind]; [|eauto]. rewrite IH. cbn. eauto. }
  destruct G as [ex ->]. cbn. eauto.
Qed.

Lemma snr_not_loaded v snr scale : holds "Transmitter" v ->
  match v with VObj c _ => match find_class table c with Some k => is_sub k "Device" = false | None => False end | _ => False end ->
  exists file, save table (VObj "SNR" [("snr", VFloat snr); ("reference", v); ("expected_channel_scale", VFloat scale)]) = Ok file
    /\ load table file "NoiseLevel" = Raise RuntimeError.
Proof.
  intros H N. destruct (nested_all v "Transmitter") as [R _]. destruct (R H) as (a & l & S & L).
  destruct v as [| | | | | |c fs|]; try tauto.
  destruct (find_class table c) as [k|] eqn:F; [|tauto].
  assert (Tg : assoc "type" a = Some (AStr c)).
  { cbn [save] in S. rewrite F in S. destruct (s_registered k); [|discriminate].
    destruct (run_writes _ _ [] []) as [[a' l']|]; cbn [bind] in S; [|discriminate]. injection S as <- <-. reflexivity. }
  assert (Ld : load table (LNode a l) "Device" = Raise RuntimeError).
  { cbn [load]. rewrite Tg, F, N, andb_false_r. reflexivity. }
  remember (VObj c fs) as m eqn:Em.
  exists (LNode [("type", AStr "SNR"); ("snr", AFloat snr)] [("reference", LNode a l)]). split.
  - assert (X : save table (VObj "SNR" [("snr", VFloat snr); ("reference", m); ("expected_channel_scale", VFloat scale)])
      = do '(a, l) <- run_writes [("snr", (VFloat snr, save table (VFloat snr))); ("reference", (m, save table m));
           ("expected_channel_scale", (VFloat scale, save table (VFloat scale)))] (s_writes k_SNR) [] [];
        Ok (LNode (put_attr a ("type", AStr "SNR")) l)) by reflexivity.
    rewrite X, S, Em. reflexivity.
  - remember (LNode a l) as x eqn:Ex.
    assert (X : load table (LNode [("type", AStr "SNR"); ("snr", AFloat snr)] [("reference", x)]) "NoiseLevel"
      = do got <- run_reads [("type", AStr "SNR"); ("snr", AFloat snr)] [("reference", (x, load table x))] (s_reads k_SNR);
        Ok (VObj "SNR" (construct k_SNR got))) by reflexivity.
    rewrite X.
    assert (Y : run_reads [("type", AStr "SNR"); ("snr", AFloat snr)] [("reference", (x, load table x))] (s_reads k_SNR)
      = do y <- (do v <- match x with LNode _ _ => load table x "Device" | _ => Raise RuntimeError end; Ok ("reference", v));
        Ok [("snr", VFloat snr); y]).
    { unfold run_reads, run_read. cbn -[load]. destruct x as [| |]; try reflexivity.
      destruct (load table _ "Device"); reflexivity. }
    rewrite Y, Ld, Ex. reflexivity.
Qed.
