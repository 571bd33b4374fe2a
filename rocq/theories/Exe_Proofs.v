(** Proofs for executables. *)
From Coq Require Import DecimalString Decimal DecimalNat.
From Coq Require Import String List Arith Bool Lia.
From Verif Require Import Base BaseLemmas Exe_Model Exe_Spec.
Import ListNotations.
Local Open Scope nat_scope.

(** * Names *)
Definition read (s : string) : option nat := option_map Nat.of_uint (NilEmpty.uint_of_string s).
Lemma read_zero s : read ("0" ++ s)%string = read s.
Proof. unfold read. cbn. destruct (NilEmpty.uint_of_string s); reflexivity. Qed.
Lemma read_decimal n : read (decimal n) = Some n.
Proof. unfold read, decimal. rewrite NilEmpty.usu. cbn [option_map]. rewrite DecimalNat.Unsigned.of_to. reflexivity. Qed.
Lemma read_three_digits n : read (three_digits n) = Some n.
Proof.
  unfold three_digits. cbv zeta. destruct (Nat.ltb_spec (String.length (decimal n)) 3) as [L|L]; [|apply read_decimal].
  remember (3 - String.length (decimal n)) as k eqn:Ek. assert (K : k = 1 \/ k = 2 \/ k = 3) by lia. rewrite <- (read_decimal n). generalize (decimal n) as s. intros s.
  destruct K as [->|[->| ->]]; cbn [repeat].
  - change (String.concat "" ["0"%string] ++ s)%string with ("0" ++ s)%string. apply read_zero.
  - change (String.concat "" ["0"; "0"]%string ++ s)%string with ("0" ++ ("0" ++ s))%string. rewrite !read_zero. reflexivity.
  - change (String.concat "" ["0"; "0"; "0"]%string ++ s)%string with ("0" ++ ("0" ++ ("0" ++ s)))%string. rewrite !read_zero. reflexivity.
Qed.
Lemma append_inj : forall a b c, (a ++ b)%string = (a ++ c)%string -> b = c.
Proof. induction a as [|x a IH]; intros b c H; [exact H|]. cbn in H. injection H as H. apply IH. exact H. Qed.
Lemma dated_inj today i j : dated today i = dated today j -> i = j.
Proof.
  unfold dated. intros H. apply append_inj, append_inj in H. assert (K : read (three_digits i) = read (three_digits j)) by (rewrite H; reflexivity). rewrite !read_three_digits in K. congruence.
Qed.
Lemma place_inj base today i j : base ++ [dated today i] = base ++ [dated today j] -> i = j.
Proof. intros H. apply app_inj_tail in H. apply (dated_inj today). apply H. Qed.

(** * File systems *)
Lemma path_eqb_spec a b : reflect (a = b) (path_eqb a b).
Proof. unfold path_eqb. destruct (list_eq_dec string_dec a b) as [E|E]; constructor; exact E. Qed.
Lemma kind_cons p k fs q : kind_of ((p, k) :: fs) q = if path_eqb p q then Some k else kind_of fs q.
Proof. unfold kind_of. cbn [find fst]. destruct (path_eqb p q); reflexivity. Qed.
Lemma kind_in fs p k : kind_of fs p = Some k -> In p (map fst fs).
Proof.
  unfold kind_of. destruct (find (fun q => path_eqb (fst q) p) fs) as [[q k']|] eqn:E; [|discriminate]. apply find_some in E. destruct E as [E1 E2]. cbn [fst] in E2.
  destruct (path_eqb_spec q p) as [->|]; [|discriminate]. intros _. apply in_map_iff. exists (p, k'). split; [reflexivity|exact E1].
Qed.
Lemma exists_spec fs p : exists_at fs p = true <-> exists k, kind_of fs p = Some k.
Proof. unfold exists_at. destruct (kind_of fs p) as [k|]; split; [intros _; exists k; reflexivity|reflexivity|discriminate|intros [k H]; discriminate]. Qed.
Lemma not_exists fs p : exists_at fs p = false <-> kind_of fs p = None.
Proof. unfold exists_at. destruct (kind_of fs p) as [k|]; split; try reflexivity; discriminate. Qed.
Lemma keeps_refl fs : keeps fs fs.
Proof. intros p k H. exact H. Qed.
Lemma keeps_trans a b c : keeps a b -> keeps b c -> keeps a c.
Proof. intros H K p k E. apply K, H, E. Qed.
Lemma keeps_cons fs p k : kind_of fs p = None -> keeps fs ((p, k) :: fs).
Proof. intros H q k' E. rewrite kind_cons. destruct (path_eqb_spec p q) as [->|]; [congruence|exact E]. Qed.
Lemma keeps_exists a b p : keeps a b -> exists_at a p = true -> exists_at b p = true.
Proof. intros H. rewrite !exists_spec. intros [k K]. exists k. apply H, K. Qed.
Lemma mkdir_spec fs p fs' : mkdir fs p = Some fs' -> kind_of fs p = None /\ fs' = (p, Directory) :: fs.
Proof. unfold mkdir. destruct (exists_at fs p) eqn:E; [discriminate|]. intros H. injection H as <-. split; [apply not_exists; exact E|reflexivity]. Qed.

(** ** makedirs *)
Definition make_one (p : path) (acc : option filesystem) (k : nat) : option filesystem :=
  match acc with
  | None => None
  | Some fs => let q := firstn k p in match kind_of fs q with Some Directory => Some fs | Some File => None | None => Some ((q, Directory) :: fs) end
  end.
Lemma make_none p l : fold_left (make_one p) l None = None.
Proof. induction l as [|k l IH]; [reflexivity|]. exact IH. Qed.
Lemma make_many p : forall l fs fs', fold_left (make_one p) l (Some fs) = Some fs' ->
  keeps fs fs' /\ (forall q, kind_of fs' q <> kind_of fs q -> exists k, In k l /\ q = firstn k p) /\ (forall k, In k l -> kind_of fs' (firstn k p) = Some Directory).
Proof.
  induction l as [|k l IH]; intros fs fs' H.
  - injection H as <-. split; [apply keeps_refl|]. split; [intros q K; contradiction|intros k []].
  - cbn [fold_left make_one] in H. cbv zeta in H. destruct (kind_of fs (firstn k p)) as [[|]|] eqn:E.
    + rewrite make_none in H. discriminate.
    + destruct (IH fs fs' H) as [K1 [K2 K3]]. split; [exact K1|]. split.
      * intros q Hq. destruct (K2 q Hq) as [k' [A B]]. exists k'. split; [right; exact A|exact B].
      * intros k' [<-|Hk]; [apply K1; exact E|apply K3; exact Hk].
    + destruct (IH _ fs' H) as [K1 [K2 K3]]. split; [eapply keeps_trans; [apply (keeps_cons _ _ Directory E)|exact K1]|]. split.
      * intros q Hq. destruct (path_eqb_spec (firstn k p) q) as [<-|N]; [exists k; split; [left; reflexivity|reflexivity]|].
        destruct (K2 q) as [k' [A B]]; [rewrite kind_cons; destruct (path_eqb_spec (firstn k p) q); [contradiction|exact Hq]|]. exists k'. split; [right; exact A|exact B].
      * intros k' [<-|Hk]; [|apply K3; exact Hk]. apply K1. rewrite kind_cons. destruct (path_eqb_spec (firstn k p) (firstn k p)); [reflexivity|contradiction].
Qed.
Lemma makedirs_spec fs p fs' : makedirs fs p = Some fs' -> keeps fs fs' /\ (forall q, kind_of fs' q <> kind_of fs q -> length q <= length p) /\ (p <> [] -> kind_of fs' p = Some Directory).
Proof.
  intros H. destruct (make_many p _ fs fs' H) as [K1 [K2 K3]]. split; [exact K1|]. split.
  - intros q Hq. destruct (K2 q Hq) as [k [_ ->]]. rewrite firstn_length. lia.
  - intros Hp. rewrite <- (firstn_all p) at 1. apply K3. apply in_seq. destruct p; [contradiction|]. cbn [length]. lia.
Qed.
Lemma make_ok p : forall l fs, (forall k, In k l -> kind_of fs (firstn k p) <> Some File) -> exists fs', fold_left (make_one p) l (Some fs) = Some fs'.
Proof.
  induction l as [|k l IH]; intros fs H; [eexists; reflexivity|]. cbn [fold_left make_one]. cbv zeta. destruct (kind_of fs (firstn k p)) as [[|]|] eqn:E.
  - exfalso. apply (H k); [left; reflexivity|exact E].
  - apply IH. intros k' Hk. apply H. right. exact Hk.
  - apply IH. intros k' Hk. rewrite kind_cons. destruct (path_eqb_spec (firstn k p) (firstn k' p)); [discriminate|]. apply H. right. exact Hk.
Qed.
Lemma make_obstructed p : forall l fs k, In k l -> kind_of fs (firstn k p) = Some File -> fold_left (make_one p) l (Some fs) = None.
Proof.
  induction l as [|k l IH]; intros fs k' Hin H; [destruct Hin|]. destruct (fold_left (make_one p) (k :: l) (Some fs)) as [fs'|] eqn:E; [|reflexivity].
  destruct (make_many p _ fs fs' E) as [K1 [_ K3]]. specialize (K3 k' Hin). specialize (K1 _ _ H). congruence.
Qed.
Lemma makedirs_ok fs p : (exists fs', makedirs fs p = Some fs') <-> unobstructed fs p.
Proof.
  split.
  - intros [fs' H] a b E Ha K. assert (Q : fold_left (make_one p) (seq 1 (length p)) (Some fs) = None).
    { apply (make_obstructed p _ fs (length a)).
      - apply in_seq. subst p. rewrite app_length. destruct a; [contradiction|]. cbn [length]. lia.
      - subst p. rewrite firstn_app, Nat.sub_diag, firstn_all. cbn [firstn]. rewrite app_nil_r. exact K. }
    unfold makedirs in H. unfold make_one in Q. rewrite Q in H. discriminate.
  - intros H. apply make_ok. intros k Hk. apply in_seq in Hk. apply (H _ (skipn k p)); [symmetry; apply firstn_skipn|]. intros X. apply (f_equal (@length string)) in X. rewrite firstn_length in X. cbn in X. lia.
Qed.

(** ** The search *)
Lemma search_some fs base today : forall fuel i j, search fs base today fuel i = Some j ->
  i <= j /\ kind_of fs (base ++ [dated today j]) = None /\ forall k, i <= k < j -> exists_at fs (base ++ [dated today k]) = true.
Proof.
  induction fuel as [|fuel IH]; intros i j H; [discriminate|]. cbn [search] in H. destruct (exists_at fs (base ++ [dated today i])) eqn:E.
  - destruct (IH _ _ H) as [K1 [K2 K3]]. split; [lia|]. split; [exact K2|]. intros k Hk. destruct (Nat.eq_dec k i) as [->|]; [exact E|]. apply K3. lia.
  - injection H as <-. split; [lia|]. split; [apply not_exists; exact E|]. intros k Hk. lia.
Qed.
Lemma search_none fs base today : forall fuel i, search fs base today fuel i = None -> forall k, i <= k < i + fuel -> exists_at fs (base ++ [dated today k]) = true.
Proof.
  induction fuel as [|fuel IH]; intros i H k Hk; [lia|]. cbn [search] in H. destruct (exists_at fs (base ++ [dated today i])) eqn:E; [|discriminate].
  destruct (Nat.eq_dec k i) as [->|]; [exact E|]. apply (IH _ H). lia.
Qed.
Lemma NoDup_map_inj {A B} (f : A -> B) l : (forall a b, f a = f b -> a = b) -> NoDup l -> NoDup (map f l).
Proof.
  intros H. induction 1 as [|a l Ha _ IH]; constructor; [|exact IH]. intros X. apply in_map_iff in X. destruct X as [b [E Hb]]. apply H in E. subst b. contradiction.
Qed.
Lemma search_total fs base today i : exists j, search fs base today (S (length fs)) i = Some j.
Proof.
  destruct (search fs base today (S (length fs)) i) as [j|] eqn:E; [exists j; reflexivity|]. exfalso.
  pose proof (search_none _ _ _ _ _ E) as K. assert (L : length (map (fun k => base ++ [dated today k]) (seq i (S (length fs)))) <= length (map fst fs)).
  { apply NoDup_incl_length; [apply NoDup_map_inj; [apply place_inj|apply seq_NoDup]|]. intros p Hp. apply in_map_iff in Hp. destruct Hp as [k [<- Hk]]. apply in_seq in Hk.
    assert (Q : exists_at fs (base ++ [dated today k]) = true) by (apply K; lia). apply exists_spec in Q. destruct Q as [x Q]. exact (kind_in _ _ _ Q). }
  rewrite !map_length, seq_length in L. lia.
Qed.

(** ** Calls *)
Lemma base_nonempty cwd e : base_directory cwd e <> [].
Proof. unfold base_directory. destruct cwd; discriminate. Qed.
Lemma call_spec fs cwd today e p fs' : default_results_dir fs cwd today e false = Some (p, fs') ->
  exists i, p = base_directory cwd e ++ [dated today i] /\ kind_of fs p = None /\ kind_of fs' p = Some Directory /\ keeps fs fs' /\
    (forall j, j < i -> exists_at fs (base_directory cwd e ++ [dated today j]) = true) /\ (forall q, kind_of fs' q <> kind_of fs q -> q = p \/ length q <= length (base_directory cwd e)).
Proof.
  unfold default_results_dir. set (base := base_directory cwd e). destruct (makedirs fs base) as [fs1|] eqn:E; [|discriminate]. destruct (makedirs_spec _ _ _ E) as [K1 [K2 K3]].
  destruct (search fs1 base today (S (length fs1)) 0) as [i|] eqn:S1; [|discriminate]. destruct (search_some _ _ _ _ _ _ S1) as [_ [S2 S3]].
  destruct (mkdir fs1 (base ++ [dated today i])) as [fs2|] eqn:M; [|discriminate]. destruct (mkdir_spec _ _ _ M) as [_ ->]. intros H. injection H as <- <-.
  assert (Same : forall k, kind_of fs1 (base ++ [dated today k]) = kind_of fs (base ++ [dated today k])).
  { intros k. destruct (kind_of fs1 (base ++ [dated today k])) as [x|] eqn:A, (kind_of fs (base ++ [dated today k])) as [y|] eqn:B; try reflexivity.
    - rewrite (K1 _ _ B) in A. congruence.
    - exfalso. assert (L : length (base ++ [dated today k]) <= length base) by (apply K2; congruence). rewrite app_length in L. cbn in L. lia.
    - rewrite (K1 _ _ B) in A. discriminate. }
  exists i. split; [reflexivity|]. split; [rewrite <- Same; exact S2|]. split; [rewrite kind_cons; destruct (path_eqb_spec (base ++ [dated today i]) (base ++ [dated today i])); [reflexivity|contradiction]|].
  split; [eapply keeps_trans; [exact K1|apply keeps_cons; exact S2]|]. split.
  - intros j Hj. specialize (S3 j). unfold exists_at in *. rewrite Same in S3. apply S3. lia.
  - intros q Hq. rewrite kind_cons in Hq. destruct (path_eqb_spec (base ++ [dated today i]) q) as [Eq|Nq]; [left; symmetry; exact Eq|]. right. apply K2. exact Hq.
Qed.
Lemma call_ok fs cwd today e overwrite : (exists p fs', default_results_dir fs cwd today e overwrite = Some (p, fs')) <-> unobstructed fs (base_directory cwd e).
Proof.
  rewrite <- makedirs_ok. unfold default_results_dir. set (base := base_directory cwd e). destruct (makedirs fs base) as [fs1|] eqn:E.
  - split; [intros _; eexists; reflexivity|]. intros _. destruct overwrite; [eexists; eexists; reflexivity|]. destruct (search_total fs1 base today 0) as [j S1]. rewrite S1.
    destruct (search_some _ _ _ _ _ _ S1) as [_ [S2 _]]. unfold mkdir. apply not_exists in S2. rewrite S2. eexists. eexists. reflexivity.
  - split; [intros [p [f H]]; discriminate|intros [f H]; discriminate].
Qed.
Lemma collect_spec : forall events fs l fs', collect fs events = (l, fs') -> keeps fs fs' /\ NoDup l /\ forall p, In p l -> kind_of fs p = None /\ kind_of fs' p = Some Directory.
Proof.
  induction events as [|[cwd today e|p k] events IH]; intros fs l fs' H; cbn [collect] in H.
  - injection H as <- <-. split; [apply keeps_refl|]. split; [constructor|intros p []].
  - destruct (default_results_dir fs cwd today e false) as [[p f]|] eqn:E; [|exact (IH _ _ _ H)].
    destruct (call_spec _ _ _ _ _ _ E) as [i [_ [A1 [A2 [A3 _]]]]]. destruct (collect f events) as [l1 f1] eqn:C. injection H as <- <-. destruct (IH _ _ _ C) as [K1 [K2 K3]].
    split; [eapply keeps_trans; eassumption|]. split.
    + constructor; [|exact K2]. intros X. destruct (K3 p X) as [Y _]. congruence.
    + intros q [<-|Hq]; [split; [exact A1|apply K1; exact A2]|]. destruct (K3 q Hq) as [B1 B2]. split; [|exact B2]. destruct (kind_of fs q) as [x|] eqn:Eq; [|reflexivity]. rewrite (A3 _ _ Eq) in B1. discriminate.
  - destruct (exists_at fs p) eqn:E; [exact (IH _ _ _ H)|]. apply not_exists in E. destruct (IH _ _ _ H) as [K1 [K2 K3]]. pose proof (keeps_cons fs p k E) as A3. split; [eapply keeps_trans; eassumption|]. split; [exact K2|].
    intros q Hq. destruct (K3 q Hq) as [B1 B2]. split; [|exact B2]. destruct (kind_of fs q) as [x|] eqn:Eq; [|reflexivity]. rewrite (A3 _ _ Eq) in B1. discriminate.
Qed.

(** ** Schedules *)
Lemma in_created l i : In i (created l) <-> In (Done i) l.
Proof.
  unfold created. rewrite in_flat_map. split.
  - intros [q [H K]]. destruct q as [j|j|j|]; cbn in K; try contradiction. destruct K as [->|[]]. exact H.
  - intros H. exists (Done i). split; [exact H|left; reflexivity].
Qed.
Lemma replace_in {A} (k : nat) (x y : A) : forall l, In y (replace_nth k x l) -> y = x \/ In y l.
Proof.
  revert k. intros k l. revert k. induction l as [|a l IH]; intros k H; [destruct k; destruct H|]. destruct k as [|k]; cbn [replace_nth] in H.
  - destruct H as [<-|H]; [left; reflexivity|right; right; exact H].
  - destruct H as [<-|H]; [right; left; reflexivity|]. destruct (IH k H) as [->|K]; [left; reflexivity|right; right; exact K].
Qed.
Lemma created_cons q l : created (q :: l) = created [q] ++ created l.
Proof. unfold created. cbn [flat_map]. rewrite app_nil_r. reflexivity. Qed.
Lemma created_same : forall l k q q', nth_error l k = Some q -> created [q'] = created [q] -> created (replace_nth k q' l) = created l.
Proof.
  induction l as [|a l IH]; intros k q q' H E; [destruct k; discriminate|]. destruct k as [|k]; cbn [nth_error replace_nth] in *.
  - injection H as ->. rewrite created_cons, (created_cons q l), E. reflexivity.
  - rewrite created_cons, (created_cons a l), (IH k q q' H E). reflexivity.
Qed.
Lemma created_new : forall l k q i, nth_error l k = Some q -> created [q] = [] -> NoDup (created l) -> ~ In i (created l) -> NoDup (created (replace_nth k (Done i) l)).
Proof.
  induction l as [|a l IH]; intros k q i H E Hn Hi; [destruct k; discriminate|]. destruct k as [|k]; cbn [nth_error replace_nth] in *.
  - injection H as ->. rewrite created_cons. rewrite created_cons, E in Hn, Hi. constructor; assumption.
  - rewrite created_cons in Hn, Hi |- *. destruct a as [j|j|j|]; cbn [created flat_map app] in *; try (apply (IH k q i H E Hn Hi)).
    inversion Hn as [|x y N1 N2]; subst. constructor.
    + intros X. apply in_created in X. apply replace_in in X. destruct X as [X|X]; [injection X as ->; apply Hi; left; reflexivity|]. apply N1. apply in_created. exact X.
    + apply (IH k q i H E N2). intros X. apply Hi. right. exact X.
Qed.
Lemma schedule_spec base today : forall turns fs l fs' l', schedule base today fs l turns = (fs', l') ->
  NoDup (created l) -> (forall i, In i (created l) -> kind_of fs (base ++ [dated today i]) = Some Directory) ->
  keeps fs fs' /\ NoDup (created l') /\ (forall i, In i (created l') -> kind_of fs' (base ++ [dated today i]) = Some Directory) /\
  (forall i, In i (created l') -> In i (created l) \/ kind_of fs (base ++ [dated today i]) = None).
Proof.
  induction turns as [|k turns IH]; intros fs l fs' l' H Hn Hd; cbn [schedule] in H.
  - injection H as <- <-. split; [apply keeps_refl|]. split; [exact Hn|]. split; [exact Hd|]. intros i Hi. left. exact Hi.
  - destruct (nth_error l k) as [q|] eqn:E; [|exact (IH _ _ _ _ H Hn Hd)]. destruct (turn base today fs q) as [fs1 q1] eqn:T.
    assert (Q : (fs1 = fs /\ created [q1] = created [q]) \/ exists i, q = Creating i /\ q1 = Done i /\ mkdir fs (base ++ [dated today i]) = Some fs1).
    { destruct q as [i|i|i|]; cbn [turn] in T.
      - destruct (exists_at fs (base ++ [dated today i])); injection T as <- <-; left; split; reflexivity.
      - destruct (mkdir fs (base ++ [dated today i])) as [f|] eqn:M; injection T as <- <-; [right; exists i; split; [reflexivity|split; [reflexivity|exact M]]|left; split; reflexivity].
      - injection T as <- <-. left. split; reflexivity.
      - injection T as <- <-. left. split; reflexivity. }
    destruct Q as [[-> Q]|[i [-> [-> M]]]].
    + pose proof (created_same l k q q1 E Q) as S1. specialize (IH _ _ _ _ H). rewrite S1 in IH. apply IH; assumption.
    + destruct (mkdir_spec _ _ _ M) as [M1 ->]. assert (Ni : ~ In i (created l)) by (intros X; apply Hd in X; congruence).
      pose proof (keeps_cons fs (base ++ [dated today i]) Directory M1) as Kc.
      assert (In1 : forall j, In j (created (replace_nth k (Done i) l)) -> j = i \/ In j (created l)).
      { intros j Hj. apply in_created in Hj. apply replace_in in Hj. destruct Hj as [X|X]; [left; congruence|right; apply in_created; exact X]. }
      destruct (IH _ _ _ _ H (created_new l k _ i E eq_refl Hn Ni)) as [K1 [K2 [K3 K4]]].
      { intros j Hj. destruct (In1 j Hj) as [->|X]; [|apply Kc, Hd; exact X]. rewrite kind_cons. destruct (path_eqb_spec (base ++ [dated today i]) (base ++ [dated today i])); [reflexivity|contradiction]. }
      split; [eapply keeps_trans; eassumption|]. split; [exact K2|]. split; [exact K3|]. intros j Hj. destruct (K4 j Hj) as [X|X].
      * destruct (In1 j X) as [->|Y]; [right; exact M1|left; exact Y].
      * right. destruct (kind_of fs (base ++ [dated today j])) as [x|] eqn:Ex; [|reflexivity]. rewrite (Kc _ _ Ex) in X. discriminate.
Qed.
