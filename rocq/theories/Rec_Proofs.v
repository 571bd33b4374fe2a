(** Proofs about recordings: every campaign's drops are replayed in order. *)
From Coq Require Import List Arith Bool ZArith String Lia.
From Verif Require Import Base BaseLemmas Ser_Model Ser_Spec Ser_Proofs SerRead_Proofs Rec_Model Rec_Spec.
Import ListNotations.
Open Scope nat_scope.

Section Recording.
Variables (r : registry) (e : string) (fuel : nat).

Definition no_array : nat -> array := fun _ => mkArray [] "" [].
Definition wfs (s : store) : Prop := wf no_array (mkW s [] []).

Lemma wf_any : forall content s, wfs s -> wf content (mkW s [] []).
Proof. intros content s [W1 W2 W3 W4 W5 W6 W7]. split; try assumption; cbn; discriminate. Qed.
Lemma wfs_of : forall content st, wf content st -> wfs (file st).
Proof. intros content st [W1 W2 W3 W4 W5 W6 W7]. split; try assumption; cbn; discriminate. Qed.

(** An object that can be read from any file that agrees with [s] below [n :: g] *)
Definition stored (s : store) (g : path) (n : string) (x : snapshot) : Prop :=
  forall t, agree (n :: g) t s -> forall rs, exists rs' a' o', read_obj fuel r t e rs g n = Ok (rs', Some a') /\
    nth_error (loaded rs') a' = Some o' /\ equals_snapshot x (loaded rs') o'.
Lemma stored_agree : forall s s' g n x, agree (n :: g) s' s -> stored s g n x -> stored s' g n x.
Proof. intros s s' g n x Ha Hs t Ht. apply Hs. eapply agree_trans; eassumption. Qed.

Lemma write_root_spec : forall x s g n, recordable r e fuel x -> wfs s -> exists_group (mkW s [] []) g -> has (mkW s [] []) (n :: g) = false ->
  exists st', write_root fuel (fst x) r (mkW s [] []) g n (snd x) = Ok st' /\
    adds (under (n :: g)) (fun k => under (n :: g) (tl k)) (mkW s [] []) (mkW (file st') [] []) /\
    children (file st') g = S (children s g) /\ holds st' (n :: g) /\ wfs (file st') /\ stored (file st') g n x.
Proof.
  intros [H a] s g n [content [rank [HW [Hin Hr]]]] Hw Hg Hf. cbn [fst snd] in *.
  assert (Hna : nth_error H a <> None) by (destruct Hin as [o [c [E _]]]; rewrite E; discriminate).
  destruct (every_obj r H content rank HW a fuel g n (mkW s [] []) []) as [st' [E [A [C [Hh [W R]]]]]].
  { lia. } { intros b []. } { apply wf_any. exact Hw. } { exact Hg. } { exact Hf. } { exact Hna. }
  exists (mkW (file st') [] []). unfold write_root. cbn [file warrays wobjects]. rewrite E. cbn [bind]. split; [reflexivity|].
  split; [|split; [exact C|split; [exact Hh|split; [eapply wfs_of; exact W|]]]].
  - destruct A as [A1 A2 _ _]. split; try assumption; cbn; discriminate.
  - intros t Ht rs. destruct (R t rs [] [] fuel e Hr Ht) as [rs' [b' [c' [a' [Er [_ [_ [Hi Ha]]]]]]]].
    + split; cbn [wobjects warrays assoc]; try discriminate; try (intros; contradiction); split; intros x y z Hx; destruct Hx.
    + exact Hin.
    + destruct (i_rel _ _ _ _ _ _ _ Hi _ _ Ha) as [o [o' [E1 [E2 E3]]]].
      exists rs', a', o'. split; [exact Er|]. split; [exact E2|]. exists o. split; [exact E1|].
      exists b', c'. split; [exact (i_one _ _ _ _ _ _ _ Hi)|]. split; [exact (g_one _ _ _ _ _ _ _ Hi)|]. split; [exact E3|].
      exact (i_rel _ _ _ _ _ _ _ Hi).
Qed.

(** ** Regions of a file *)
Definition region (n : string) (c : option string) : path := n :: base c.
Definition is_region (n : string) : Prop := n = "drops"%string \/ n = "state"%string.
Lemma region_not_campaign : forall n c m, is_region n -> valid_campaign (Some m) -> ~ under (region n c) [m].
Proof.
  intros n c m Hn Hm Hu. destruct c as [c|].
  - apply under_length in Hu. cbn in Hu. lia.
  - destruct Hu as [q E]. destruct q as [|y q]; [|destruct q; discriminate]. injection E as E. subst m.
    apply Hm. cbn [In]. destruct Hn as [-> | ->]; tauto.
Qed.
Lemma region_not_arrays : forall n c c', is_region n -> valid_campaign c -> valid_campaign c' -> ~ under (region n c) ("arrays"%string :: base c').
Proof.
  intros n c c' Hn Hc Hc' Hu. destruct c as [c|], c' as [c'|]; unfold region, base in Hu.
  - destruct Hu as [q E]. destruct q as [|y q]; [|destruct q as [|y' q]; [discriminate|destruct q; discriminate]].
    injection E as E _. destruct Hn as [-> | ->]; discriminate.
  - apply under_length in Hu. cbn in Hu. lia.
  - destruct Hu as [q E]. destruct q as [|y q]; [discriminate|]. destruct q as [|y' q]; [|destruct q; discriminate].
    injection E as _ E. subst c'. apply Hc'. cbn [In]. destruct Hn as [-> | ->]; tauto.
  - destruct Hu as [q E]. destruct q as [|y q]; [|destruct q; discriminate]. injection E as E. destruct Hn as [-> | ->]; discriminate.
Qed.
Lemma regions_disjoint : forall n c n' c' k, is_region n -> is_region n' -> valid_campaign c -> valid_campaign c' ->
  under (region n c) k -> under (region n' c') k -> n = n' /\ c = c'.
Proof.
  intros n c n' c' k Hn Hn' Hc Hc' H1 H2. destruct c as [c|], c' as [c'|]; unfold region, base in *.
  - assert (c = c') by (eapply under_same_head; eapply under_sub; eassumption). subst c'.
    split; [|reflexivity]. eapply under_same_head; eassumption.
  - exfalso. assert (c = n') by (eapply under_same_head; [eapply under_sub; exact H1|exact H2]). subst n'.
    apply Hc. cbn [In]. destruct Hn' as [-> | ->]; tauto.
  - exfalso. assert (n = c') by (eapply under_same_head; [exact H1|eapply under_sub; exact H2]). subst n.
    apply Hc'. cbn [In]. destruct Hn as [-> | ->]; tauto.
  - split; [eapply under_same_head; eassumption|reflexivity].
Qed.

(** ** Opening *)
Lemma create_group_adds : forall (P : path -> Prop) s p, P p -> adds P (fun _ => False) (mkW s [] []) (mkW (create_group s p) [] []).
Proof. intros P s p Hp. unfold create_group. destruct (is_some (lookup p (entries s))); [apply adds_refl|]. apply (adds_entry P _ (mkW s [] [])). exact Hp. Qed.
Lemma create_group_wf : forall s n g, wfs s -> exists_group (mkW s [] []) g -> wfs (create_group s (n :: g)).
Proof.
  intros s n g Hw Hg. unfold create_group. destruct (is_some (lookup (n :: g) (entries s))) eqn:E; [exact Hw|].
  exact (wf_add_entry no_array (mkW s [] []) n g EGroup Hw Hg E).
Qed.
Lemma create_group_holds : forall s p, holds (mkW (create_group s p) [] []) p.
Proof.
  intros s p. unfold create_group, holds, has. cbn [file]. destruct (is_some (lookup p (entries s))) eqn:E; [exact E|].
  cbn [entries]. rewrite lookup_cons_eq. reflexivity.
Qed.

Lemma open_file_spec : forall v t c s, wfs s -> valid_campaign c ->
  wfs (open_file v t c s) /\ exists_group (mkW (open_file v t c s) [] []) (base c) /\
  (forall n, is_some (lookup n (entries s)) = true -> is_some (lookup n (entries (open_file v t c s))) = true) /\
  forall n c', is_region n -> valid_campaign c' -> agree (region n c') (open_file v t c s) s.
Proof.
  intros v t c s Hw Hc. unfold open_file.
  set (s1 := mkStore (entries s) ((["timestamp"%string], SFloat t) :: (["version"%string], SStr v) :: attrs s)).
  set (s2 := match c with None => s1 | Some n => create_group s1 [n] end).
  assert (W1 : wfs s1).
  { apply (wf_set_attr no_array (mkW (mkStore (entries s) ((["version"%string], SStr v) :: attrs s)) [] []) "timestamp" [] (SFloat t)); [|left; reflexivity].
    apply (wf_set_attr no_array (mkW s [] []) "version" [] (SStr v)); [exact Hw|left; reflexivity]. }
  assert (W2 : wfs s2).
  { unfold s2. destruct c as [n|]; [|exact W1]. apply create_group_wf; [exact W1|left; reflexivity]. }
  assert (G2 : exists_group (mkW s2 [] []) (base c)).
  { unfold s2, base. destruct c as [n|]; [right; apply create_group_holds|left; reflexivity]. }
  set (P := fun k : path => (exists m, c = Some m /\ k = [m]) \/ k = "arrays"%string :: base c).
  set (Q := fun k : path => k = ["timestamp"%string] \/ k = ["version"%string]).
  assert (A : adds P Q (mkW s [] []) (mkW (create_group s2 ("arrays"%string :: base c)) [] [])).
  { apply (adds_trans _ _ _ (mkW s1 [] [])).
    - split; cbn; try discriminate.
      + exists []. split; [reflexivity|constructor].
      + exists [(["timestamp"%string], SFloat t); (["version"%string], SStr v)]. split; [reflexivity|].
        repeat constructor; unfold Q; cbn [fst]; tauto.
    - apply (adds_trans _ _ _ (mkW s2 [] [])).
      + unfold s2. destruct c as [m|] eqn:Ec; [|apply adds_refl]. eapply adds_weak; [apply (create_group_adds P)| |].
        * left. exists m. split; reflexivity.
        * auto.
        * intros k [].
      + eapply adds_weak; [apply (create_group_adds P)| |].
        * right. reflexivity.
        * auto.
        * intros k []. }
  split; [apply create_group_wf; assumption|]. split; [eapply adds_exists; [|exact G2]; apply (create_group_adds (fun _ => True)); exact I|].
  split.
  - intros n Hn. exact (adds_holds _ _ _ _ n A Hn).
  - intros n c' Hn Hc'. apply (adds_agree P Q (mkW s [] []) (mkW (create_group s2 ("arrays"%string :: base c)) [] [])); [exact A| |].
    + intros k Hk [[m [-> ->]]| ->].
      * exact (region_not_campaign _ _ _ Hn Hc Hk).
      * exact (region_not_arrays _ _ _ Hn Hc' Hc Hk).
    + intros m x Hx HQ. destruct Hx as [q E]. destruct HQ as [E'|E']; injection E' as _ E'; rewrite E' in E; destruct q; discriminate.
Qed.

(** ** What a recording has stored in a campaign *)
Record recorded (c : option string) (D : list snapshot) (s : store) : Prop := {
  rec_count : children s (region "drops" c) = List.length D;
  rec_group : lookup (region "drops" c) (entries s) = match D with [] => None | _ => Some EGroup end;
  rec_fresh : forall j, List.length D <= j -> lookup (index_name j :: region "drops" c) (entries s) = None;
  rec_drop : forall j x, nth_error D j = Some x -> stored s (region "drops" c) (index_name j) x
}.
Lemma recorded_agree : forall c D s s', agree (region "drops" c) s' s -> recorded c D s -> recorded c D s'.
Proof.
  intros c D s s' Ha [R1 R2 R3 R4]. split.
  - rewrite (ag_c _ _ _ Ha) by apply under_refl. exact R1.
  - rewrite (ag_e _ _ _ Ha) by apply under_refl. exact R2.
  - intros j Hj. rewrite (ag_e _ _ _ Ha) by (apply under_cons, under_refl). apply R3. exact Hj.
  - intros j x Hx. eapply stored_agree; [apply agree_sub; exact Ha|]. apply R4. exact Hx.
Qed.
Definition has_state (c : option string) (o : option snapshot) (s : store) : Prop :=
  match o with
  | None => lookup (region "state" c) (entries s) = None
  | Some x => is_some (lookup (region "state" c) (entries s)) = true /\ stored s (base c) "state" x
  end.
Lemma has_state_agree : forall c o s s', agree (region "state" c) s' s -> has_state c o s -> has_state c o s'.
Proof.
  intros c o s s' Ha Hs. destruct o as [x|]; cbn [has_state] in *.
  - destruct Hs as [H1 H2]. split; [rewrite (ag_e _ _ _ Ha) by apply under_refl; exact H1|]. eapply stored_agree; [exact Ha|exact H2].
  - rewrite (ag_e _ _ _ Ha) by apply under_refl. exact Hs.
Qed.

Lemma region_agree : forall n c n' c' st st', is_region n -> is_region n' -> valid_campaign c -> valid_campaign c' -> (n, c) <> (n', c') ->
  adds (under (region n c)) (fun k => under (region n c) (tl k)) st st' -> agree (region n' c') (file st') (file st).
Proof.
  intros n c n' c' st st' Hn Hn' Hc Hc' Hne A. eapply adds_agree; [exact A| |].
  - intros k Hk Hk'. destruct (regions_disjoint n' c' n c k) as [-> ->]; try assumption. congruence.
  - intros m x Hk Hk'. cbn [tl] in Hk'. destruct (regions_disjoint n' c' n c x) as [-> ->]; try assumption. congruence.
Qed.

(** ** The state of a scenario *)
Lemma record_state_spec : forall c x s old, recordable r e fuel x -> valid_campaign c -> wfs s -> exists_group (mkW s [] []) (base c) -> has_state c old s ->
  exists s', record_state fuel r c x s = Ok s' /\ wfs s' /\ has_state c (match old with Some y => Some y | None => Some x end) s' /\
    exists_group (mkW s' [] []) (base c) /\ (forall k, is_some (lookup k (entries s)) = true -> is_some (lookup k (entries s')) = true) /\
    forall n' c', is_region n' -> valid_campaign c' -> ("state"%string, c) <> (n', c') -> agree (region n' c') s' s.
Proof.
  intros c x s old Hx Hc Hw Hg Ho. unfold record_state. destruct old as [y|].
  - destruct Ho as [Hh Hs]. exists s.
    assert (E : write_root fuel (fst x) r (mkW s [] []) (base c) "state" (snd x) = Ok (mkW s [] [])).
    { destruct Hx as [content [rank [HW [[o [cl [E1 [E2 _]]]] Hr]]]]. unfold write_root. cbn [file].
      destruct fuel as [|f]; [lia|]. cbn [write_obj]. rewrite E1, E2. cbn [is_some negb]. unfold has. cbn [file]. 
      unfold region in Hh. rewrite Hh. reflexivity. }
    rewrite E. cbn [bind file]. split; [reflexivity|]. split; [exact Hw|]. split; [split; assumption|]. split; [exact Hg|]. split; [auto|].
    intros. apply agree_refl.
  - cbn [has_state] in Ho. assert (Hf : has (mkW s [] []) ("state"%string :: base c) = false) by (unfold has; cbn [file]; unfold region in Ho; rewrite Ho; reflexivity).
    destruct (write_root_spec x s (base c) "state" Hx Hw Hg Hf) as [st' [E [A [_ [Hh [W S]]]]]].
    exists (file st'). rewrite E. cbn [bind]. split; [reflexivity|]. split; [exact W|]. split; [split; [exact Hh|exact S]|].
    split; [eapply adds_exists; [exact A|exact Hg]|]. split; [intros k Hk; exact (adds_holds _ _ _ _ k A Hk)|].
    intros n' c' Hn' Hc' Hne. apply (region_agree "state" c n' c' (mkW s [] []) (mkW (file st') [] [])); try assumption. right. reflexivity.
Qed.

(** ** A drop *)
Lemma record_drop_spec : forall c x s D, recordable r e fuel x -> valid_campaign c -> wfs s -> exists_group (mkW s [] []) (base c) -> recorded c D s ->
  exists s', record_drop fuel r c s x = Ok s' /\ wfs s' /\ recorded c (D ++ [x]) s' /\ exists_group (mkW s' [] []) (base c) /\
    (forall k, is_some (lookup k (entries s)) = true -> is_some (lookup k (entries s')) = true) /\
    forall n' c', is_region n' -> valid_campaign c' -> ("drops"%string, c) <> (n', c') -> agree (region n' c') s' s.
Proof.
  intros c x s D Hx Hc Hw Hg [R1 R2 R3 R4]. unfold region in R1, R2, R3, R4.
  set (q := "drops"%string :: base c) in *.
  (* the group of drops *)
  assert (Hq : exists s1, (if has (mkW s [] []) q then mkW s [] [] else add_entry (mkW s [] []) q EGroup) = mkW s1 [] [] /\
     (has (mkW s [] []) q = true -> s1 = s) /\
     wfs s1 /\ lookup q (entries s1) = Some EGroup /\ children s1 q = List.length D /\
     (forall j, List.length D <= j -> lookup (index_name j :: q) (entries s1) = None) /\
     adds (eq q) (fun _ => False) (mkW s [] []) (mkW s1 [] [])).
  { destruct (has (mkW s [] []) q) eqn:Hh.
    - exists s. split; [reflexivity|]. split; [reflexivity|]. split; [exact Hw|]. split; [|split; [exact R1|split; [exact R3|apply adds_refl]]].
      unfold has in Hh. cbn [file] in Hh. rewrite R2 in Hh |- *. destruct D; [discriminate|reflexivity].
    - exists (mkStore ((q, EGroup) :: entries s) (attrs s)). split; [reflexivity|]. split; [discriminate|].
      split; [exact (wf_add_entry no_array (mkW s [] []) "drops" (base c) EGroup Hw Hg Hh)|].
      split; [cbn [entries]; apply lookup_cons_eq|].
      assert (A : adds (eq q) (fun _ => False) (mkW s [] []) (mkW (mkStore ((q, EGroup) :: entries s) (attrs s)) [] [])) by (apply (adds_entry (eq q) _ (mkW s [] [])); reflexivity).
      assert (Hlen : forall m, q <> m :: q) by (intros m E; apply (f_equal (@List.length string)) in E; cbn [List.length] in E; lia).
      split; [|split; [|exact A]].
      + rewrite <- R1. exact (adds_children _ _ _ _ q A (fun m E => Hlen m E)).
      + intros j Hj. cbn [entries]. rewrite lookup_cons_ne by (intros E; exact (Hlen _ (eq_sym E))). apply R3. exact Hj. }
  destruct Hq as [s1 [E1 [Es1 [W1 [L1 [C1 [F1 A1]]]]]]].
  assert (Hfr : has (mkW s1 [] []) (index_name (List.length D) :: q) = false) by (unfold has; cbn [file]; rewrite F1 by lia; reflexivity).
  assert (Gq : exists_group (mkW s1 [] []) q) by (right; unfold holds, has; cbn [file]; rewrite L1; reflexivity).
  destruct (write_root_spec x s1 q (index_name (List.length D)) Hx W1 Gq Hfr) as [st' [Ew [A2 [C2 [Hh2 [W2 S2]]]]]].
  exists (file st').
  assert (Erun : record_drop fuel r c s x = Ok (file st')).
  { unfold record_drop, serialize_sequence. fold q.
    assert (Er : resolve s1 q = q) by (unfold resolve; rewrite L1; reflexivity).
    destruct (has (mkW s [] []) q) eqn:Hh.
    - rewrite (Es1 eq_refl) in *. cbv zeta. cbn [file]. rewrite Er, L1, C1. cbn [List.length seq combine foldM fst snd bind]. rewrite Ew. reflexivity.
    - rewrite E1. cbv zeta. cbn [file]. rewrite Er, L1. 
      assert (HD : List.length D = 0) by (unfold has in Hh; cbn [file] in Hh; rewrite R2 in Hh; destruct D; [reflexivity|discriminate]).
      rewrite HD in Ew. cbn [List.length seq combine foldM fst snd bind]. rewrite Ew. reflexivity. }
  split; [exact Erun|]. split; [exact W2|].
  assert (A : adds (under (region "drops" c)) (fun k => under (region "drops" c) (tl k)) (mkW s [] []) (mkW (file st') [] [])).
  { apply (adds_trans _ _ _ (mkW s1 [] [])).
    - eapply adds_weak; [exact A1| |intros k []]. intros k <-. apply under_refl.
    - eapply adds_weak; [exact A2| |]; intros k Hk; eapply under_sub; exact Hk. }
  assert (Hidx : forall j k, j <> List.length D -> under (index_name (List.length D) :: q) k -> ~ under (index_name j :: q) k).
  { intros j k Hj H1 H2. apply Hj. apply index_name_inj. eapply under_same_head; eassumption. }
  assert (Hbase : forall m k, under (index_name (List.length D) :: q) k -> k <> q /\ (k = m :: q -> m = index_name (List.length D))).
  { intros m k Hk. split.
    - intros ->. exact (not_under_self _ _ Hk).
    - intros ->. symmetry. eapply under_same_head; [exact Hk|apply under_refl]. }
  split; [|split; [|split]].
  - split; unfold region; fold q.
    + rewrite C2, C1, app_length. cbn [List.length]. lia.
    + assert (E : lookup q (entries (file st')) = lookup q (entries s1)).
      { apply (adds_lookup_e _ _ _ _ _ A2). intros Hk. exact (not_under_self _ _ Hk). }
      rewrite E, L1. destruct D; reflexivity.
    + intros j Hj. rewrite app_length in Hj. cbn [List.length] in Hj.
      assert (E : lookup (index_name j :: q) (entries (file st')) = lookup (index_name j :: q) (entries s1)).
      { apply (adds_lookup_e _ _ _ _ _ A2). intros Hk. assert (j <> List.length D) by lia. exact (Hidx j _ H Hk (under_refl _)). }
      rewrite E. apply F1. lia.
    + intros j y Hy. destruct (Nat.eq_dec j (List.length D)) as [->|Hne].
      * rewrite nth_error_app2 in Hy by lia. rewrite Nat.sub_diag in Hy. injection Hy as <-. exact S2.
      * assert (Hj : j < List.length D).
        { assert (Hlt : j < List.length (D ++ [x])) by (apply nth_error_Some; rewrite Hy; discriminate). rewrite app_length in Hlt. cbn [List.length] in Hlt. lia. }
        rewrite nth_error_app1 in Hy by exact Hj. apply (stored_agree s); [|apply R4; exact Hy].
        apply (agree_trans _ _ s1).
        -- apply (adds_agree _ _ (mkW s1 [] []) (mkW (file st') [] []) _ A2).
           ++ intros k Hk Hk'. exact (Hidx j k Hne Hk' Hk).
           ++ intros m k Hk Hk'. exact (Hidx j k Hne Hk' Hk).
        -- apply (adds_agree _ _ (mkW s [] []) (mkW s1 [] []) _ A1).
           ++ intros k Hk <-. exact (not_under_self _ _ Hk).
           ++ intros m k Hk [].
  - eapply adds_exists; [exact A|exact Hg].
  - intros k Hk. exact (adds_holds _ _ _ _ k A Hk).
  - intros n' c' Hn' Hc' Hne. apply (region_agree "drops" c n' c' (mkW s [] []) (mkW (file st') [] [])); try assumption. left. reflexivity.
Qed.

Lemma record_drops_spec : forall c l s D, Forall (recordable r e fuel) l -> valid_campaign c -> wfs s -> exists_group (mkW s [] []) (base c) -> recorded c D s ->
  exists s', foldM (record_drop fuel r c) l s = Ok s' /\ wfs s' /\ recorded c (D ++ l) s' /\ exists_group (mkW s' [] []) (base c) /\
    (forall k, is_some (lookup k (entries s)) = true -> is_some (lookup k (entries s')) = true) /\
    forall n' c', is_region n' -> valid_campaign c' -> ("drops"%string, c) <> (n', c') -> agree (region n' c') s' s.
Proof.
  intros c l. induction l as [|x l IH]; intros s D Hl Hc Hw Hg Hr.
  - exists s. cbn [foldM]. rewrite app_nil_r. split; [reflexivity|]. split; [exact Hw|]. split; [exact Hr|]. split; [exact Hg|]. split; [auto|].
    intros. apply agree_refl.
  - inversion Hl as [|y l0 Hx Hl' Ey]. subst y l0.
    destruct (record_drop_spec c x s D Hx Hc Hw Hg Hr) as [s1 [E1 [W1 [R1 [G1 [K1 A1]]]]]].
    destruct (IH s1 (D ++ [x]) Hl' Hc W1 G1 R1) as [s2 [E2 [W2 [R2 [G2 [K2 A2]]]]]].
    exists s2. cbn [foldM]. rewrite E1. cbn [bind]. rewrite <- app_assoc in R2. cbn [List.app] in R2.
    split; [exact E2|]. split; [exact W2|]. split; [exact R2|]. split; [exact G2|]. split; [auto|].
    intros n' c' Hn' Hc' Hne. apply (agree_trans _ _ s1); [apply A2; assumption|apply A1; assumption].
Qed.

(** ** Sessions *)
Definition good_session (x : session) : Prop :=
  valid_campaign (campaign x) /\ Forall (recordable r e fuel) (drops x) /\ (forall o, state x = Some o -> recordable r e fuel o).

Record library (l : list session) (s : store) : Prop := {
  lib_wf : wfs s;
  lib_campaign : forall c m, c = Some m -> filter (in_campaign c) l <> [] -> is_some (lookup [m] (entries s)) = true;
  lib_drops : forall c, valid_campaign c -> recorded c (drops_of c l) s;
  lib_state : forall c, valid_campaign c -> has_state c (first_state c l) s
}.

Lemma in_campaign_true : forall c x, in_campaign c x = true <-> c = campaign x.
Proof. intros c x. unfold in_campaign. destruct (campaign_dec c (campaign x)); split; congruence. Qed.
Lemma drops_of_app : forall c l x, drops_of c (l ++ [x]) = drops_of c l ++ (if in_campaign c x then drops x else []).
Proof.
  intros c l x. unfold drops_of. rewrite filter_app, map_app, concat_app. cbn [filter].
  destruct (in_campaign c x); cbn [map List.concat]; rewrite ?app_nil_r; reflexivity.
Qed.
Lemma first_state_app : forall c l x, first_state c (l ++ [x]) =
  match first_state c l with Some o => Some o | None => if in_campaign c x then state x else None end.
Proof.
  intros c l x. induction l as [|y l IH]; cbn [List.app first_state].
  - destruct (in_campaign c x); [destruct (state x)|]; reflexivity.
  - destruct (in_campaign c y); [destruct (state y)|]; try exact IH; reflexivity.
Qed.

Lemma session_spec : forall l s x, library l s -> good_session x ->
  exists s', record_session fuel r s x = Ok s' /\ library (l ++ [x]) s'.
Proof.
  intros l s x [Lw Lc Ld Ls] [Hc [Hd Ho]]. set (c := campaign x) in *.
  destruct (open_file_spec (version x) (timestamp x) c s Lw Hc) as [W1 [G1 [K1 A1]]].
  set (s1 := open_file (version x) (timestamp x) c s) in *.
  assert (Hstate : exists s2, match state x with None => Ok s1 | Some o => record_state fuel r c o s1 end = Ok s2 /\ wfs s2 /\
    exists_group (mkW s2 [] []) (base c) /\ has_state c (match first_state c l with Some y => Some y | None => state x end) s2 /\
    (forall k, is_some (lookup k (entries s1)) = true -> is_some (lookup k (entries s2)) = true) /\
    forall n' c', is_region n' -> valid_campaign c' -> ("state"%string, c) <> (n', c') -> agree (region n' c') s2 s1).
  { assert (Hs1 : has_state c (first_state c l) s1) by (apply (has_state_agree c _ s); [apply A1; [right; reflexivity|exact Hc]|apply Ls; exact Hc]).
    destruct (state x) as [o|] eqn:Es.
    - destruct (record_state_spec c o s1 (first_state c l) (Ho o eq_refl) Hc W1 G1 Hs1) as [s2 [E2 [W2 [S2 [G2 [K2 A2]]]]]].
      exists s2. split; [exact E2|]. split; [exact W2|]. split; [exact G2|]. split; [exact S2|]. split; [exact K2|exact A2].
    - exists s1. split; [reflexivity|]. split; [exact W1|]. split; [exact G1|].
      split; [destruct (first_state c l); exact Hs1|]. split; [auto|]. intros. apply agree_refl. }
  destruct Hstate as [s2 [E2 [W2 [G2 [S2 [K2 A2]]]]]].
  assert (R2 : recorded c (drops_of c l) s2).
  { apply (recorded_agree c _ s1).
    - apply A2; [left; reflexivity|exact Hc|congruence].
    - apply (recorded_agree c _ s); [apply A1; [left; reflexivity|exact Hc]|apply Ld; exact Hc]. }
  destruct (record_drops_spec c (drops x) s2 _ Hd Hc W2 G2 R2) as [s3 [E3 [W3 [R3 [G3 [K3 A3]]]]]].
  exists s3. unfold record_session. fold c s1. rewrite E2. cbn [bind]. split; [exact E3|].
  assert (Hother : forall c' , valid_campaign c' -> c' <> c -> forall n, is_region n -> agree (region n c') s3 s).
  { intros c' Hc' Hne n Hn. apply (agree_trans _ _ s2); [apply A3; [exact Hn|exact Hc'|congruence]|].
    apply (agree_trans _ _ s1); [apply A2; [exact Hn|exact Hc'|congruence]|]. apply A1; assumption. }
  split.
  - exact W3.
  - intros c' m -> Hin. rewrite filter_app in Hin. cbn [filter] in Hin. destruct (in_campaign (Some m) x) eqn:Ei.
    + apply in_campaign_true in Ei. fold c in Ei. rewrite <- Ei in G3. destruct G3 as [G3|G3]; [discriminate|]. exact G3.
    + rewrite app_nil_r in Hin. apply K3, K2, K1. eapply Lc; [reflexivity|exact Hin].
  - intros c' Hc'. rewrite drops_of_app. destruct (in_campaign c' x) eqn:Ei.
    + apply in_campaign_true in Ei. fold c in Ei. subst c'. exact R3.
    + rewrite app_nil_r. apply (recorded_agree c' _ s); [|apply Ld; exact Hc']. apply Hother; [exact Hc'| |left; reflexivity].
      intros E. assert (in_campaign c' x = true) by (apply in_campaign_true; exact E). congruence.
  - intros c' Hc'. rewrite first_state_app. destruct (in_campaign c' x) eqn:Ei.
    + apply in_campaign_true in Ei. fold c in Ei. subst c'. apply (has_state_agree c _ s2); [|exact S2].
      apply A3; [right; reflexivity|exact Hc|congruence].
    + apply (has_state_agree c' _ s).
      * apply Hother; [exact Hc'| |right; reflexivity].
        intros E. assert (in_campaign c' x = true) by (apply in_campaign_true; exact E). congruence.
      * specialize (Ls c' Hc'). destruct (first_state c' l); exact Ls.
Qed.

Lemma library_nil : library [] (mkStore [] []).
Proof.
  split.
  - split; cbn; try discriminate.
  - intros c m _ Hn. destruct (Hn eq_refl).
  - intros c Hc. split; try reflexivity. intros j x Hx. destruct j; discriminate.
  - intros c Hc. reflexivity.
Qed.
Lemma sessions_spec : forall l l0 s, library l0 s -> Forall good_session l -> exists s', foldM (record_session fuel r) l s = Ok s' /\ library (l0 ++ l) s'.
Proof.
  intros l. induction l as [|x l IH]; intros l0 s Hl Hg.
  - exists s. rewrite app_nil_r. split; [reflexivity|exact Hl].
  - inversion Hg as [|y l1 Hx Hg' Ey]. subst y l1. destruct (session_spec l0 s x Hl Hx) as [s1 [E1 L1]].
    destruct (IH (l0 ++ [x]) s1 L1 Hg') as [s2 [E2 L2]]. exists s2. cbn [foldM]. rewrite E1. cbn [bind]. rewrite <- app_assoc in L2. split; assumption.
Qed.

(** ** Replay *)
Lemma replay_spec : forall l s c k, library l s -> valid_campaign c -> filter (in_campaign c) l <> [] ->
  replay s c k = if List.length (drops_of c l) <=? k then Raise ValueError else Ok (mkPlayer k empty_reader, List.length (drops_of c l) - k).
Proof.
  intros l s c k [Lw Lc Ld Ls] Hc Hin. unfold replay.
  assert (E : match c with None => false | Some n => negb (is_some (lookup [n] (entries s))) end = false).
  { destruct c as [m|]; [|reflexivity]. rewrite (Lc (Some m) m eq_refl Hin). reflexivity. }
  rewrite E. destruct (Ld c Hc) as [R1 R2 R3 R4]. unfold region in *.
  assert (En : sequence_length s (base c) "drops" = List.length (drops_of c l)).
  { unfold sequence_length, resolve. rewrite R2. destruct (drops_of c l); [reflexivity|]. cbn [is_some]. exact R1. }
  rewrite En. reflexivity.
Qed.
Lemma replay_drop_spec : forall l s c k rs, library l s -> valid_campaign c ->
  match nth_error (drops_of c l) k with
  | Some x => exists rs' o', replay_drop fuel r e s c (mkPlayer k rs) = Ok (mkPlayer (S k) rs', o') /\ equals_snapshot x (loaded rs') o'
  | None => drops_of c l <> [] -> replay_drop fuel r e s c (mkPlayer k rs) = Raise IndexError
  end.
Proof.
  intros l s c k rs [Lw Lc Ld Ls] Hc. destruct (Ld c Hc) as [R1 R2 R3 R4]. unfold region in *.
  unfold replay_drop, deserialize_range. cbn [reader counter].
  destruct (nth_error (drops_of c l) k) as [x|] eqn:Ex.
  - assert (Hk : k < List.length (drops_of c l)) by (apply nth_error_Some; rewrite Ex; discriminate).
    assert (L : lookup ("drops"%string :: base c) (entries s) = Some EGroup) by (rewrite R2; destruct (drops_of c l); [cbn in Hk; lia|reflexivity]).
    unfold resolve. rewrite L. cbn [is_some negb]. rewrite R1.
    replace (Nat.min (1 + k) (List.length (drops_of c l)) - k) with 1 by lia. cbn [seq read_members].
    destruct (R4 k x Ex s (agree_refl _ _) rs) as [rs' [a' [o' [E1 [E2 E3]]]]].
    rewrite E1. cbn [bind]. rewrite E2. exists rs', o'. split; [reflexivity|exact E3].
  - intros Hne. apply nth_error_None in Ex.
    assert (L : lookup ("drops"%string :: base c) (entries s) = Some EGroup) by (rewrite R2; destruct (drops_of c l); [congruence|reflexivity]).
    unfold resolve. rewrite L. cbn [is_some negb]. rewrite R1.
    replace (Nat.min (1 + k) (List.length (drops_of c l)) - k) with 0 by lia. reflexivity.
Qed.
Lemma replay_state_spec : forall l s c, library l s -> valid_campaign c -> filter (in_campaign c) l <> [] ->
  match first_state c l with
  | Some x => exists H' o', replay_state fuel r e s c = Ok (H', o') /\ equals_snapshot x H' o'
  | None => 0 < fuel -> replay_state fuel r e s c = Raise RuntimeError
  end.
Proof.
  intros l s c [Lw Lc Ld Ls] Hc Hin. specialize (Ls c Hc). unfold replay_state.
  assert (E : match c with None => false | Some n => negb (is_some (lookup [n] (entries s))) end = false).
  { destruct c as [m|]; [|reflexivity]. rewrite (Lc (Some m) m eq_refl Hin). reflexivity. }
  rewrite E. destruct (first_state c l) as [x|]; cbn [has_state] in Ls.
  - destruct Ls as [_ Hs]. destruct (Hs s (agree_refl _ _) empty_reader) as [rs' [a' [o' [E1 [E2 E3]]]]].
    rewrite E1. cbn [bind]. rewrite E2. exists (loaded rs'), o'. split; [reflexivity|exact E3].
  - intros Hf. destruct fuel as [|f]; [lia|]. cbn [read_obj]. unfold region in Ls. rewrite Ls. reflexivity.
Qed.
End Recording.
