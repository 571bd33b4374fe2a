(** Proofs about runs of the hardware loop and its plot threads. *)
From Coq Require Import List Arith Bool Lia.
From Verif Require Import Base BaseLemmas Hwl_Model Hwl_Spec.
Import ListNotations.

(** ** Grids *)
Lemma in_ndindex : forall sh i, In i (ndindex sh) <-> Forall2 lt i sh.
Proof.
  induction sh as [|n sh IH]; intros i; cbn [ndindex].
  - split; [intros [<-|[]]; constructor|]. intros H. inversion H. left. reflexivity.
  - rewrite in_flat_map. split.
    + intros [k [Hk Hi]]. apply in_map_iff in Hi. destruct Hi as [j [<- Hj]]. apply in_seq in Hk. constructor; [lia|]. apply IH. exact Hj.
    + intros H. inversion H as [|k n' j sh' Hk Hj E1 E2]; subst. exists k. split; [apply in_seq; lia|]. apply in_map. apply IH. exact Hj.
Qed.
Lemma NoDup_flat : forall {T U} (f : T -> list U) l, NoDup l -> (forall x, In x l -> NoDup (f x)) ->
  (forall x y u, In x l -> In y l -> In u (f x) -> In u (f y) -> x = y) -> NoDup (flat_map f l).
Proof.
  intros T U f l H. induction H as [|x l Hx H IH]; intros H1 H2; [constructor|]. cbn [flat_map].
  assert (K : forall (a b : list U), NoDup a -> NoDup b -> (forall u, In u a -> In u b -> False) -> NoDup (a ++ b)).
  { intros a b Ha Hb Hd. induction Ha as [|u a Hu Ha IHa]; [exact Hb|]. cbn [app]. constructor.
    - intros Hin. apply in_app_iff in Hin. destruct Hin as [Hin|Hin]; [contradiction|]. apply (Hd u); [left; reflexivity|exact Hin].
    - apply IHa. intros v Hv Hb'. apply (Hd v); [right; exact Hv|exact Hb']. }
  apply K.
  - apply H1. left. reflexivity.
  - apply IH; [intros y Hy; apply H1; right; exact Hy|]. intros y z u Hy Hz. apply H2; right; assumption.
  - intros u Hu Hf. apply in_flat_map in Hf. destruct Hf as [y [Hy Hu']]. apply Hx. rewrite (H2 x y u); [exact Hy|left; reflexivity|right; exact Hy|exact Hu|exact Hu'].
Qed.
Lemma NoDup_map : forall {T U} (f : T -> U) l, (forall x y, In x l -> In y l -> f x = f y -> x = y) -> NoDup l -> NoDup (map f l).
Proof.
  intros T U f l Hf H. induction H as [|x l Hx H IH]; [constructor|]. cbn [map]. constructor.
  - intros Hin. apply in_map_iff in Hin. destruct Hin as [y [E Hy]]. apply Hx. rewrite <- (Hf y x); [exact Hy|right; exact Hy|left; reflexivity|exact E].
  - apply IH. intros y z Hy Hz. apply Hf; right; assumption.
Qed.
Lemma NoDup_ndindex : forall sh, NoDup (ndindex sh).
Proof.
  induction sh as [|n sh IH]; cbn [ndindex]; [constructor; [intros []|constructor]|]. apply NoDup_flat; [apply seq_NoDup| |].
  - intros k _. apply NoDup_map; [|exact IH]. intros x y _ _ E. congruence.
  - intros x y u _ _ Hx Hy. apply in_map_iff in Hx. apply in_map_iff in Hy. destruct Hx as [a [Ea _]]. destruct Hy as [b [Eb _]]. congruence.
Qed.
Lemma ndindex_length : forall sh i, In i (ndindex sh) -> length i = length sh.
Proof. intros sh i H. apply in_ndindex in H. induction H; [reflexivity|cbn; congruence]. Qed.
Lemma flat_map_map : forall {T U V} (f : U -> list V) (g : T -> U) l, flat_map f (map g l) = flat_map (fun x => f (g x)) l.
Proof. intros. induction l as [|x l IH]; [reflexivity|]. cbn [map flat_map]. rewrite IH. reflexivity. Qed.
Lemma map_flat_map : forall {T U V} (f : U -> V) (g : T -> list U) l, map f (flat_map g l) = flat_map (fun x => map f (g x)) l.
Proof. intros. induction l as [|x l IH]; [reflexivity|]. cbn [flat_map]. rewrite map_app, IH. reflexivity. Qed.
Lemma flat_map_ext_in : forall {T U} (f g : T -> list U) l, (forall x, In x l -> f x = g x) -> flat_map f l = flat_map g l.
Proof. intros T U f g l H. induction l as [|x l IH]; [reflexivity|]. cbn [flat_map]. rewrite H by (left; reflexivity). rewrite IH by (intros y Hy; apply H; right; exact Hy). reflexivity. Qed.
Lemma flat_map_assoc : forall {T U V} (f : U -> list V) (g : T -> list U) l, flat_map f (flat_map g l) = flat_map (fun x => flat_map f (g x)) l.
Proof. intros. induction l as [|x l IH]; [reflexivity|]. cbn [flat_map]. rewrite flat_map_app, IH. reflexivity. Qed.
Lemma ndindex_snoc : forall sh n, ndindex (sh ++ [n]) = flat_map (fun i => map (fun k => i ++ [k]) (seq 0 n)) (ndindex sh).
Proof.
  induction sh as [|m sh IH]; intros n.
  - cbn [app ndindex flat_map map]. rewrite app_nil_r. induction (seq 0 n) as [|k l IHl]; [reflexivity|]. cbn [flat_map map app]. rewrite IHl. reflexivity.
  - cbn [app ndindex]. rewrite flat_map_assoc. apply flat_map_ext. intros k. rewrite IH, map_flat_map, flat_map_map. apply flat_map_ext. intros i.
    rewrite map_map. reflexivity.
Qed.
Lemma visits_drops : forall sizes n, visits DROPS sizes n = flat_map (fun sec => map (fun k => (sec, k)) (seq 0 n)) (ndindex sizes).
Proof.
  intros sizes n. unfold visits. rewrite ndindex_snoc, map_flat_map. apply flat_map_ext_in. intros i Hi. rewrite map_map. apply map_ext. intros k.
  apply ndindex_length in Hi. rewrite <- Hi, firstn_app, firstn_all, Nat.sub_diag, app_nil_r, app_nth2, Nat.sub_diag by lia. reflexivity.
Qed.
Lemma visits_grid : forall sizes n, visits GRID sizes n = flat_map (fun k => map (fun sec => (sec, k)) (ndindex sizes)) (seq 0 n).
Proof.
  intros sizes n. unfold visits. cbn [ndindex]. rewrite map_flat_map. apply flat_map_ext. intros k. rewrite map_map. apply map_ext_in. intros i Hi.
  cbn [skipn nth]. apply ndindex_length in Hi. rewrite <- Hi, firstn_all. reflexivity.
Qed.
Lemma in_visits : forall p sizes n sec k, In (sec, k) (visits p sizes n) <-> section_of sizes sec /\ k < n.
Proof.
  intros p sizes n sec k. unfold section_of. rewrite <- in_ndindex. destruct p.
  - rewrite visits_drops, in_flat_map. split.
    + intros [i [Hi Hk]]. apply in_map_iff in Hk. destruct Hk as [j [E Hj]]. injection E as <- <-. apply in_seq in Hj. split; [exact Hi|lia].
    + intros [Hi Hk]. exists sec. split; [exact Hi|]. apply in_map_iff. exists k. split; [reflexivity|apply in_seq; lia].
  - rewrite visits_grid, in_flat_map. split.
    + intros [j [Hj Hk]]. apply in_map_iff in Hk. destruct Hk as [i [E Hi]]. injection E as <- <-. apply in_seq in Hj. split; [exact Hi|lia].
    + intros [Hi Hk]. exists k. split; [apply in_seq; lia|]. apply in_map_iff. exists sec. split; [reflexivity|exact Hi].
Qed.
Lemma NoDup_visits : forall p sizes n, NoDup (visits p sizes n).
Proof.
  intros p sizes n. destruct p.
  - rewrite visits_drops. apply NoDup_flat; [apply NoDup_ndindex| |].
    + intros i _. apply NoDup_map; [|apply seq_NoDup]. intros x y _ _ E. congruence.
    + intros x y u _ _ Hx Hy. apply in_map_iff in Hx. apply in_map_iff in Hy. destruct Hx as [a [Ea _]]. destruct Hy as [b [Eb _]]. congruence.
  - rewrite visits_grid. apply NoDup_flat; [apply seq_NoDup| |].
    + intros i _. apply NoDup_map; [|apply NoDup_ndindex]. intros x y _ _ E. congruence.
    + intros x y u _ _ Hx Hy. apply in_map_iff in Hx. apply in_map_iff in Hy. destruct Hx as [a [Ea _]]. destruct Hy as [b [Eb _]]. congruence.
Qed.
Lemma same_section_true : forall a b, same_section a b = true <-> a = b.
Proof. intros a b. unfold same_section. destruct (list_eq_dec Nat.eq_dec a b) as [E|E]; split; intros H; try assumption; try reflexivity; [discriminate|contradiction]. Qed.
(** Every section is visited once per drop *)
Lemma entries_visits : forall p sizes n sec, section_of sizes sec -> entries sec (visits p sizes n) = n.
Proof.
  intros p sizes n sec Hs. unfold entries.
  transitivity (length (map (fun k => (sec, k)) (seq 0 n))); [|rewrite map_length, seq_length; reflexivity].
  assert (Hd : NoDup (map (fun k => (sec, k)) (seq 0 n))) by (apply NoDup_map; [intros x y _ _ E; congruence|apply seq_NoDup]).
  apply Nat.le_antisymm; apply NoDup_incl_length; try exact Hd; try (apply NoDup_filter, NoDup_visits).
  - intros [s k] H. apply filter_In in H. destruct H as [Hi He]. cbn [fst] in He. apply same_section_true in He. subst s. apply in_visits in Hi.
    apply in_map_iff. exists k. split; [reflexivity|apply in_seq; lia].
  - intros [s k] H. apply in_map_iff in H. destruct H as [j [E Hj]]. injection E as <- <-. apply in_seq in Hj. apply filter_In. split; [apply in_visits; split; [exact Hs|lia]|].
    cbn [fst]. apply same_section_true. reflexivity.
Qed.

(** ** Passes *)
Section Loop.
Variables S E A : Type.
Variable env : environment S E A.
Notation passes := (passes S E A env).
Notation one_pass := (one_pass S E A env).

Lemma pass_shape : forall sec s s', one_pass sec s = (s', None, None) -> False.
Proof.
  intros sec s s' H. unfold Hwl_Model.one_pass in H. destruct (run_all S (pre_hooks env) s) as [s1 [u|x]]; [|congruence].
  destruct (generate_sample S E A env sec s1) as [s2 [a|x]]; [|congruence]. destruct (run_all S _ s2) as [s3 [u'|x]]; congruence.
Qed.
Lemma passes_spec : forall l k o, o_raised o = None -> exists R Er, let o' := passes false never always k l o in
  o_rows o' = o_rows o ++ R /\ o_errors o' = o_errors o ++ Er /\ o_raised o' = None /\
  selection (map fst R) (map fst l) /\ selection (map fst Er) (map fst l) /\
  (forall sec, entries sec l <= entries sec R + entries sec Er).
Proof.
  induction l as [|[sec j] l IH]; intros k o Ho.
  - exists [], []. cbn [Hwl_Model.passes]. rewrite !app_nil_r. split; [reflexivity|]. split; [reflexivity|]. split; [exact Ho|]. split; [constructor|]. split; [constructor|]. intros s. cbn. lia.
  - cbn [Hwl_Model.passes never always negb]. destruct (one_pass sec (o_state o)) as [[s a] e] eqn:Ep.
    destruct e as [x|].
    + destruct (IH (Datatypes.S k) (Outcome s (match a with Some y => o_rows o ++ [(sec, y)] | None => o_rows o end) (o_errors o ++ [(sec, x)]) None) eq_refl) as [R [Er [H1 [H2 [H3 [H4 [H5 H6]]]]]]].
      cbv zeta in *. cbn [o_rows o_errors] in *. exists (match a with Some y => (sec, y) :: R | None => R end), ((sec, x) :: Er).
      split; [rewrite H1; destruct a; [rewrite <- app_assoc|]; reflexivity|]. split; [rewrite H2, <- app_assoc; reflexivity|]. split; [exact H3|].
      split; [destruct a; cbn [map fst]; constructor; exact H4|]. split; [cbn [map fst]; constructor; exact H5|].
      intros s'. specialize (H6 s'). unfold entries in *. cbn [filter fst]. destruct (same_section sec s') eqn:Es; destruct a; cbn [filter fst length]; rewrite ?Es; cbn [length]; lia.
    + destruct (IH (Datatypes.S k) (Outcome s (match a with Some y => o_rows o ++ [(sec, y)] | None => o_rows o end) (o_errors o) None) eq_refl) as [R [Er [H1 [H2 [H3 [H4 [H5 H6]]]]]]].
      cbv zeta in *. cbn [o_rows o_errors] in *. destruct a as [y|].
      * exists ((sec, y) :: R), Er. split; [rewrite H1, <- app_assoc; reflexivity|]. split; [exact H2|]. split; [exact H3|].
        split; [cbn [map fst]; constructor; exact H4|]. split; [cbn [map fst]; constructor; exact H5|].
        intros s'. specialize (H6 s'). unfold entries in *. cbn [filter fst]. destruct (same_section sec s'); cbn [length]; lia.
      * exfalso. exact (pass_shape _ _ _ Ep).
Qed.

(** What a pass needs and records *)
Lemma run_all_ok : forall l s, List.Forall succeeds l -> exists s', run_all S l s = (s', Ok tt).
Proof.
  induction l as [|f l IH]; intros s H; [exists s; reflexivity|]. inversion H as [|f' l' Hf Hl]; subst. cbn [run_all].
  destruct (Hf s) as [s1 [x E1]]. rewrite E1. apply IH. exact Hl.
Qed.
Lemma evaluate_all_ok : forall l s, List.Forall succeeds l -> exists s' xs, evaluate_all S E l s = (s', Ok xs).
Proof.
  induction l as [|f l IH]; intros s H; [exists s, []; reflexivity|]. inversion H as [|f' l' Hf Hl]; subst. cbn [evaluate_all].
  destruct (Hf s) as [s1 [x E1]]. rewrite E1. destruct (IH s1 Hl) as [s2 [xs E2]]. rewrite E2. exists s2, (x :: xs). reflexivity.
Qed.
Lemma evaluate_all_length : forall l s s' xs, evaluate_all S E l s = (s', Ok xs) -> length xs = length l.
Proof.
  induction l as [|f l IH]; intros s s' xs H; cbn [evaluate_all] in H; [injection H as <- <-; reflexivity|].
  destruct (f s) as [s1 [x|e]]; [|congruence]. destruct (evaluate_all S E l s1) as [s2 r] eqn:E2. injection H as <- Hr. apply bind_ok in Hr. destruct Hr as [ys [-> Hy]].
  injection Hy as <-. cbn [length]. f_equal. eapply IH. exact E2.
Qed.
Lemma mapM_total : forall {T U} (f : T -> result U) l, (forall x, exists y, f x = Ok y) -> exists ys, mapM f l = Ok ys.
Proof.
  intros T U f l H. induction l as [|x l [ys IH]]; [exists []; reflexivity|]. destruct (H x) as [y Ey]. exists (y :: ys). cbn [mapM]. rewrite Ey. cbn [bind]. rewrite IH. reflexivity.
Qed.
Definition all_succeed : Prop := List.Forall succeeds (pre_hooks env) /\ (forall a, List.Forall (fun h => succeeds (h a)) (post_hooks env)) /\
  (forall d p, succeeds (configure env d p)) /\ succeeds (drop env) /\ List.Forall succeeds (evaluate env) /\ (forall x, exists a, artifact env x = Ok a).
Lemma settings_ok : (forall d p, succeeds (configure env d p)) -> forall sec d, List.Forall succeeds (settings S E A env d sec).
Proof. intros H. induction sec as [|p sec IH]; intros d; cbn [settings]; constructor; [apply H|apply IH]. Qed.
Lemma one_pass_ok : all_succeed -> forall sec s, exists s' a, one_pass sec s = (s', Some a, None).
Proof.
  intros [H1 [H2 [H3 [H4 [H5 H6]]]]] sec s. unfold Hwl_Model.one_pass. destruct (run_all_ok _ s H1) as [s1 E1]. rewrite E1. unfold generate_sample.
  destruct (run_all_ok (settings S E A env 0 sec ++ [drop env]) s1) as [s2 E2]; [apply Forall_app; split; [apply settings_ok; exact H3|constructor; [exact H4|constructor]]|].
  rewrite E2. destruct (evaluate_all_ok _ s2 H5) as [s3 [xs E3]]. rewrite E3. cbn [bind]. destruct (mapM_total (artifact env) xs H6) as [a Ea]. rewrite Ea.
  destruct (run_all_ok (map (fun h => h a) (post_hooks env)) s3) as [s4 E4]; [apply Forall_map; apply H2|]. rewrite E4. exists s4, a. reflexivity.
Qed.
Lemma passes_ok : all_succeed -> forall l k o, o_errors o = [] -> o_errors (passes false never always k l o) = [].
Proof.
  intros H. induction l as [|[sec j] l IH]; intros k o Ho; [exact Ho|]. cbn [Hwl_Model.passes never always negb].
  destruct (one_pass_ok H sec (o_state o)) as [s [a Ea]]. rewrite Ea. apply IH. exact Ho.
Qed.
Lemma pass_row : forall sec s s' a e, one_pass sec s = (s', Some a, e) -> exists s1 s2, generate_sample S E A env sec s1 = (s2, Ok a).
Proof.
  intros sec s s' a e H. unfold Hwl_Model.one_pass in H. destruct (run_all S (pre_hooks env) s) as [s1 [u|x]]; [|congruence].
  destruct (generate_sample S E A env sec s1) as [s2 [a'|x]] eqn:Eg; [|congruence]. exists s1, s2. destruct (run_all S _ s2) as [s3 [u'|x]]; congruence.
Qed.
Lemma sample_length : forall sec s s' a, generate_sample S E A env sec s = (s', Ok a) -> length a = length (evaluate env).
Proof.
  intros sec s s' a H. unfold generate_sample in H. destruct (run_all S _ s) as [s1 [u|x]]; [|congruence].
  destruct (evaluate_all S E (evaluate env) s1) as [s2 r] eqn:E2. injection H as <- Hr. apply bind_ok in Hr. destruct Hr as [es [-> Hm]].
  rewrite (mapM_length _ _ _ Hm). eapply evaluate_all_length. exact E2.
Qed.
(** A property of all samples holds of all rows *)
Lemma passes_rows : forall (P : list nat -> list A -> Prop), (forall sec s s' a, generate_sample S E A env sec s = (s', Ok a) -> P sec a) ->
  forall debug int conf l k o, (forall r, In r (o_rows o) -> P (fst r) (snd r)) ->
  forall r, In r (o_rows (passes debug int conf k l o)) -> P (fst r) (snd r).
Proof.
  intros P HP debug int conf. induction l as [|[sec j] l IH]; intros k o Ho r Hr; cbn [Hwl_Model.passes] in Hr; [apply Ho; exact Hr|].
  destruct (int k); [apply Ho; exact Hr|]. destruct (negb (conf k)); [apply Ho; exact Hr|]. destruct (one_pass sec (o_state o)) as [[s a] e] eqn:Ep.
  assert (Hrows : forall r', In r' (match a with Some x => o_rows o ++ [(sec, x)] | None => o_rows o end) -> P (fst r') (snd r')).
  { intros r' H'. destruct a as [x|]; [|apply Ho; exact H']. apply in_app_iff in H'. destruct H' as [H'|[<-|[]]]; [apply Ho; exact H'|].
    destruct (pass_row _ _ _ _ _ Ep) as [s1 [s2 Eg]]. cbn [fst snd]. eapply HP. exact Eg. }
  destruct e as [x|]; [destruct debug|]; cbn [o_rows] in Hr; [apply Hrows; exact Hr| |]; eapply IH; try exact Hr; exact Hrows.
Qed.
(** Stopping early *)
Lemma passes_prefix : forall debug int conf j, (int j = true \/ conf j = false) -> forall l k o, k <= j -> (forall i, k <= i < j -> int i = false /\ conf i = true) ->
  passes debug int conf k l o = passes debug never always 0 (firstn (j - k) l) o.
Proof.
  intros debug int conf j Hj.
  assert (Hshift : forall l a b o, passes debug never always a l o = passes debug never always b l o).
  { induction l as [|[sec i] l IH]; intros a b o; [reflexivity|]. cbn [Hwl_Model.passes never always negb]. destruct (one_pass sec (o_state o)) as [[s y] e].
    destruct e as [x|]; [destruct debug; [reflexivity|]|]; apply IH. }
  induction l as [|[sec i] l IH]; intros k o Hk Hi; [rewrite firstn_nil; reflexivity|].
  destruct (Nat.eq_dec k j) as [->|Hne].
  - rewrite Nat.sub_diag. cbn [Hwl_Model.passes firstn]. destruct Hj as [->| ->]; [reflexivity|]. destruct (int j); reflexivity.
  - destruct (Hi k ltac:(lia)) as [E1 E2]. replace (j - k) with (Datatypes.S (j - Datatypes.S k)) by lia. cbn [Hwl_Model.passes firstn]. rewrite E1, E2. unfold never at 1, always at 1. cbn [negb].
    destruct (one_pass sec (o_state o)) as [[s y] e].
    assert (Hn : forall o', passes debug int conf (Datatypes.S k) l o' = passes debug never always 1 (firstn (j - Datatypes.S k) l) o').
    { intros o'. rewrite IH by (try lia; intros m Hm; apply Hi; lia). apply Hshift. }
    destruct e as [x|]; [destruct debug; [reflexivity|]|]; apply Hn.
Qed.
(** Debugging: the first exception ends the run *)
Lemma passes_debug : forall l k o, o_raised o = None ->
  let o' := passes true never always k l o in
  match o_raised o' with
  | None => o' = passes false never always k l o /\ o_errors o' = o_errors o
  | Some e => exists l1 sec j l2 o1 a, l = l1 ++ (sec, j) :: l2 /\ o1 = passes false never always k l1 o /\ o_errors o1 = o_errors o /\
              one_pass sec (o_state o1) = (o_state o', a, Some e) /\
              o_rows o' = o_rows o1 ++ match a with Some x => [(sec, x)] | None => [] end
  end.
Proof.
  induction l as [|[sec j] l IH]; intros k o Ho; cbn [Hwl_Model.passes]; cbv zeta; [rewrite Ho; split; reflexivity|].
  change (never k) with false. change (always k) with true. cbn [negb]. destruct (one_pass sec (o_state o)) as [[s a] e] eqn:Ep. destruct e as [x|].
  - cbn [o_raised]. exists [], sec, j, l, o, a. split; [reflexivity|]. split; [reflexivity|]. split; [reflexivity|]. split; [exact Ep|]. cbn [o_rows]. destruct a; [reflexivity|rewrite app_nil_r; reflexivity].
  - set (o0 := Outcome s _ (o_errors o) None). specialize (IH (Datatypes.S k) o0 eq_refl). cbv zeta in IH.
    destruct (o_raised (passes true never always (Datatypes.S k) l o0)) as [x|] eqn:Eo in IH |- *.
    + destruct IH as [l1 [sec' [j' [l2 [o1 [a' [E1 [E2 [E3 [E4 E5]]]]]]]]]]. exists ((sec, j) :: l1), sec', j', l2, o1, a'.
      split; [cbn [app]; f_equal; exact E1|]. split; [|split; [exact E3|split; [exact E4|exact E5]]].
      rewrite E2. cbn [Hwl_Model.passes]. change (never k) with false. change (always k) with true. cbn [negb]. rewrite Ep. reflexivity.
    + exact IH.
Qed.
(** Where artifacts come from *)
Lemma settings_configured : forall (point : S -> nat -> nat),
  (forall d p s s', configure env d p s = (s', Ok tt) -> point s' d = p /\ forall d', d' <> d -> point s' d' = point s d') ->
  forall sec d s s', run_all S (settings S E A env d sec) s = (s', Ok tt) ->
  (forall i, i < length sec -> point s' (d + i) = nth i sec 0) /\ (forall d', d' < d -> point s' d' = point s d').
Proof.
  intros point Hc. induction sec as [|p sec IH]; intros d s s' H; cbn [settings run_all] in H.
  - injection H as <-. split; [intros i Hi; cbn in Hi; lia|reflexivity].
  - destruct (configure env d p s) as [s1 [[]|x]] eqn:Ec; [|congruence]. destruct (Hc _ _ _ _ Ec) as [Hp Ho]. destruct (IH (Datatypes.S d) s1 s' H) as [H1 H2].
    split.
    + intros i Hi. destruct i as [|i]; cbn [nth]; [rewrite Nat.add_0_r, H2 by lia; exact Hp|]. rewrite <- Nat.add_succ_comm. apply H1. cbn in Hi. lia.
    + intros d' Hd'. rewrite H2 by lia. apply Ho. lia.
Qed.
Lemma run_all_app : forall l m s s', run_all S (l ++ m) s = (s', Ok tt) -> exists s1, run_all S l s = (s1, Ok tt) /\ run_all S m s1 = (s', Ok tt).
Proof.
  induction l as [|f l IH]; intros m s s' H; [exists s; split; [reflexivity|exact H]|]. cbn [app run_all] in *. destruct (f s) as [s1 [u|x]]; [|congruence]. apply IH. exact H.
Qed.
Lemma sample_origin : forall (point dropped : S -> nat -> nat) (origin : A -> nat -> nat),
  (forall d p s s', configure env d p s = (s', Ok tt) -> point s' d = p /\ forall d', d' <> d -> point s' d' = point s d') ->
  (forall s s', drop env s = (s', Ok tt) -> forall d, dropped s' d = point s d) ->
  (forall f, In f (evaluate env) -> forall s s' r, f s = (s', r) -> (forall d, dropped s' d = dropped s d) /\
     forall x a, r = Ok x -> artifact env x = Ok a -> forall d, origin a d = dropped s d) ->
  forall sec s s' l, generate_sample S E A env sec s = (s', Ok l) -> List.Forall (fun a => forall d, d < length sec -> origin a d = nth d sec 0) l.
Proof.
  intros point dropped origin Hc Hd He sec s s' l H. unfold generate_sample in H. destruct (run_all S _ s) as [s1 [u|x]] eqn:E1; [|congruence]. destruct u.
  apply run_all_app in E1. destruct E1 as [s0 [Ea Eb]]. destruct (settings_configured point Hc sec 0 s s0 Ea) as [Hp _]. cbn [run_all] in Eb.
  destruct (drop env s0) as [s1' [[]|x]] eqn:Ed; [|congruence]. injection Eb as ->. pose proof (Hd _ _ Ed) as Hd1.
  destruct (evaluate_all S E (evaluate env) s1) as [s2 r] eqn:E2. injection H as <- Hr. apply bind_ok in Hr. destruct Hr as [es [-> Hm]].
  assert (Hdr : forall d, d < length sec -> dropped s1 d = nth d sec 0) by (intros d Hlt; rewrite Hd1; apply (Hp d Hlt)).
  clear - He E2 Hm Hdr. revert s1 s2 es l He E2 Hm Hdr. induction (evaluate env) as [|f fs IH]; intros s1 s2 es l He E2 Hm Hdr; cbn [evaluate_all] in E2.
  - injection E2 as <- <-. cbn [mapM] in Hm. injection Hm as <-. constructor.
  - destruct (f s1) as [s1' [x|x]] eqn:Ef; [|congruence]. destruct (evaluate_all S E fs s1') as [s2' r'] eqn:E3. injection E2 as <- Hr. apply bind_ok in Hr.
    destruct Hr as [ys [-> Hy]]. injection Hy as <-. cbn [mapM] in Hm. apply bind_ok in Hm. destruct Hm as [a [Ha Hm]]. apply bind_ok in Hm. destruct Hm as [as' [Has Hm]]. injection Hm as <-.
    destruct (He f (or_introl eq_refl) _ _ _ Ef) as [K1 K2]. constructor.
    + intros d Hlt. rewrite (K2 x a eq_refl Ha). apply Hdr. exact Hlt.
    + eapply IH; [intros g Hg; apply He; right; exact Hg|exact E3|exact Has|]. intros d Hlt. rewrite K1. apply Hdr. exact Hlt.
Qed.
End Loop.

Lemma fold_add_known : forall l known, incl l known -> fold_left add_operator l known = known.
Proof.
  induction l as [|o l IH]; intros known H; [reflexivity|]. cbn [fold_left]. unfold add_operator at 2.
  replace (existsb (Nat.eqb o) known) with true; [apply IH; intros x Hx; apply H; right; exact Hx|].
  symmetry. apply existsb_exists. exists o. split; [apply H; left; reflexivity|apply Nat.eqb_refl].
Qed.

(** ** Plot threads *)
Section Plots.
Context {X : Type}.
Variable xs : list X.
Definition rest (m : main X) : list X := match m with Feeding l => l | Notifying l => l | _ => [] end.
Definition feeding (m : main X) : bool := match m with Feeding _ | Notifying _ => true | _ => false end.
(** i samples have been handed over; those of numbers ix have been plotted *)
Definition invariant (t : threads X) (n : nat) (ix : list nat) : Prop :=
  n <= length xs /\ rest (t_main t) = skipn n xs /\ (feeding (t_main t) = false -> n = length xs) /\ t_alive t = feeding (t_main t) /\
  t_sample t = nth_sample xs n /\ t_plotted t = map (nth_sample xs) ix /\ ascending ix /\ List.Forall (fun i => i <= n) ix /\
  match t_place t with
  | Preparing => ix = []
  | Head => ix = [] \/ last ix 0 = n \/ exists l, t_main t = Notifying l
  | Waiting _ | Plotting => True
  | Closing | Finished => t_alive t = false /\ (ix = [] \/ last ix 0 = n)
  end /\ (forall l, t_main t = Notifying l -> t_place t <> Closing /\ t_place t <> Finished) /\ (t_main t = Joined -> t_place t = Finished).
Lemma ascending_snoc : forall l n, ascending l -> List.Forall (fun i => i <= n) l -> ascending (l ++ [n]).
Proof.
  induction l as [|a l IH]; intros n H F; cbn [app ascending]; [split; constructor|]. cbn [ascending] in H. destruct H as [H1 H2]. inversion F as [|a' l' Fa Fl]; subst.
  split; [apply Forall_app; split; [exact H1|constructor; [exact Fa|constructor]]|apply IH; assumption].
Qed.
Lemma last_snoc : forall (l : list nat) n d, last (l ++ [n]) d = n.
Proof. induction l as [|a l IH]; intros n d; [reflexivity|]. cbn [app last]. destruct (l ++ [n]) eqn:E; [destruct l; discriminate|]. rewrite <- E. apply IH. Qed.
Lemma skipn_more : forall (l : list X) n x r, skipn n l = x :: r -> nth_error l n = Some x /\ skipn (Datatypes.S n) l = r /\ n < length l.
Proof.
  induction l as [|y l IH]; intros n x r H; [rewrite skipn_nil in H; discriminate|]. destruct n as [|n]; cbn [skipn nth_error length] in *.
  - injection H as <- <-. split; [reflexivity|]. split; [reflexivity|lia].
  - destruct (IH n x r H) as [H1 [H2 H3]]. split; [exact H1|]. split; [|lia]. destruct l; exact H2.
Qed.
Lemma step_invariant : forall w b t t' n ix, invariant t n ix -> step w b t = Some t' ->
  exists n' ix', invariant t' n' ix' /\ n <= n' /\
  ((exists k, ix' = ix ++ k)).
Proof.
  intros w b [p m s a l] t' n ix H Hs. unfold invariant in H. cbn [t_place t_main t_sample t_alive t_plotted] in H.
  destruct H as [H1 [H2 [H3 [H4 [H5 [H6 [H7 [H8 [H9 [H10 H11]]]]]]]]]]. destruct w; cbn [step] in Hs.
  - destruct p as [| |b'| | |]; [| |destruct b'| | |].
    + injection Hs as <-. exists n, ix. split; [|split; [lia|exists []; rewrite app_nil_r; reflexivity]]. unfold invariant. cbn [t_place t_main t_sample t_alive t_plotted].
      repeat (split; [first [assumption | left; assumption | intros l' E'; split; discriminate]|]). intros E. apply H11 in E. discriminate.
    + injection Hs as <-. exists n, ix. split; [|split; [lia|exists []; rewrite app_nil_r; reflexivity]]. unfold invariant. cbn [t_place t_main t_sample t_alive t_plotted].
      do 8 (split; [assumption|]). destruct a.
      * split; [exact I|]. split; [intros l' E'; split; discriminate|]. intros E. apply H11 in E. discriminate.
      * assert (Hm : forall l', m <> Notifying l') by (intros l' ->; cbn in H4; discriminate).
        split; [split; [reflexivity|destruct H9 as [H9|[H9|[l' H9]]]; [left; exact H9|right; exact H9|exfalso; exact (Hm l' H9)]]|].
        split; [intros l' E'; exfalso; exact (Hm l' E')|]. intros E. apply H11 in E. discriminate.
    + injection Hs as <-. exists n, ix. split; [|split; [lia|exists []; rewrite app_nil_r; reflexivity]]. unfold invariant. cbn [t_place t_main t_sample t_alive t_plotted].
      do 8 (split; [assumption|]). split; [exact I|]. split; [intros l' E'; split; discriminate|]. intros E. apply H11 in E. discriminate.
    + destruct b; [|discriminate]. injection Hs as <-. exists n, ix. split; [|split; [lia|exists []; rewrite app_nil_r; reflexivity]]. unfold invariant. cbn [t_place t_main t_sample t_alive t_plotted].
      do 8 (split; [assumption|]). destruct a; (split; [exact I|]; split; [intros l' E'; split; discriminate|]; intros E; apply H11 in E; discriminate).
    + injection Hs as <-. exists n, (ix ++ [n]). split; [|split; [lia|exists [n]; reflexivity]]. unfold invariant. cbn [t_place t_main t_sample t_alive t_plotted].
      do 5 (split; [assumption|]). split; [rewrite map_app, <- H6; cbn [map]; rewrite H5; reflexivity|]. split; [apply ascending_snoc; assumption|].
      split; [apply Forall_app; split; [exact H8|constructor; [lia|constructor]]|]. split; [right; left; apply last_snoc|].
      split; [intros l' E'; split; discriminate|]. intros E. apply H11 in E. discriminate.
    + injection Hs as <-. exists n, ix. split; [|split; [lia|exists []; rewrite app_nil_r; reflexivity]]. unfold invariant. cbn [t_place t_main t_sample t_alive t_plotted].
      do 8 (split; [assumption|]). split; [exact H9|]. split; [intros l' E'; destruct (H10 l' E') as [K _]; exfalso; apply K; reflexivity|reflexivity].
    + discriminate.
  - destruct m as [r|r| |].
    + destruct r as [|x r]; injection Hs as <-.
      * exists n, ix. split; [|split; [lia|exists []; rewrite app_nil_r; reflexivity]]. unfold invariant. cbn [t_place t_main t_sample t_alive t_plotted rest feeding] in *.
        assert (Hn : n = length xs). { apply Nat.le_antisymm; [exact H1|]. pose proof (skipn_length n xs) as L. rewrite <- H2 in L. cbn [length] in L. lia. }
        split; [exact H1|]. split; [exact H2|]. split; [intros _; exact Hn|]. split; [reflexivity|]. do 4 (split; [assumption|]). split.
        -- destruct p; try exact H9; [|destruct H9 as [H9 _]; congruence|destruct H9 as [H9 _]; congruence].
           destruct H9 as [H9|[H9|[l' H9]]]; [left; exact H9|right; left; exact H9|discriminate].
        -- split; intros; discriminate.
      * cbn [rest feeding] in *. destruct (skipn_more xs n x r (eq_sym H2)) as [K1 [K2 K3]].
        exists (Datatypes.S n), ix. split; [|split; [lia|exists []; rewrite app_nil_r; reflexivity]]. unfold invariant. cbn [t_place t_main t_sample t_alive t_plotted rest feeding].
        split; [lia|]. split; [symmetry; exact K2|]. split; [discriminate|]. split; [exact H4|]. split; [cbn [nth_sample]; symmetry; exact K1|]. split; [exact H6|]. split; [exact H7|].
        split; [eapply Forall_impl; [|exact H8]; intros i Hi; cbv beta in *; lia|]. split.
        -- destruct p; try exact H9; try exact I; [right; right; exists r; reflexivity|destruct H9 as [H9 _]; congruence|destruct H9 as [H9 _]; congruence].
        -- split; [intros l' _; split; intros ->; destruct H9 as [H9 _]; congruence|discriminate].
    + destruct (holds_condition p) eqn:Eh; [discriminate|]. injection Hs as <-. exists n, ix. split; [|split; [lia|exists []; rewrite app_nil_r; reflexivity]].
      unfold invariant. cbn [t_place t_main t_sample t_alive t_plotted rest feeding] in *. do 8 (split; [assumption|]).
      destruct (H10 r eq_refl) as [K1 K2]. destruct p; try discriminate; try (exfalso; apply K1; reflexivity); try (exfalso; apply K2; reflexivity);
        (split; [first [exact H9|exact I]|]; split; intros; discriminate).
    + destruct p; try discriminate. injection Hs as <-. exists n, ix. split; [|split; [lia|exists []; rewrite app_nil_r; reflexivity]].
      unfold invariant. cbn [t_place t_main t_sample t_alive t_plotted rest feeding] in *. do 8 (split; [assumption|]). split; [exact H9|]. split; [discriminate|reflexivity].
    + discriminate.
Qed.
Lemma schedule_invariant : forall h t n ix, invariant t n ix -> exists n' ix' k, invariant (schedule h t) n' ix' /\ n <= n' /\ ix' = ix ++ k.
Proof.
  induction h as [|[w b] h IH]; intros t n ix H; [exists n, ix, []; split; [exact H|split; [lia|rewrite app_nil_r; reflexivity]]|].
  unfold schedule. cbn [fold_left fst snd]. destruct (step w b t) as [t'|] eqn:Es.
  - destruct (step_invariant w b t t' n ix H Es) as [n1 [ix1 [K1 [K2 [k K3]]]]]. destruct (IH t' n1 ix1 K1) as [n2 [ix2 [k2 [M1 [M2 M3]]]]].
    exists n2, ix2, (k ++ k2). split; [exact M1|]. split; [lia|]. rewrite M3, K3, app_assoc. reflexivity.
  - apply IH. exact H.
Qed.
Lemma start_invariant : invariant (start xs) 0 [].
Proof.
  unfold invariant, start. cbn [t_place t_main t_sample t_alive t_plotted rest feeding]. split; [lia|]. split; [reflexivity|]. split; [discriminate|]. split; [reflexivity|].
  split; [reflexivity|]. split; [reflexivity|]. split; [exact I|]. split; [constructor|]. split; [reflexivity|]. split; discriminate.
Qed.
(** Once it waits, the plotter plots before it ends *)
Definition engaged (t : threads X) : Prop := match t_place t with Waiting _ | Plotting => True | Preparing => False | _ => t_plotted t <> [] end.
Lemma engaged_step : forall w b t t', engaged t -> step w b t = Some t' -> engaged t'.
Proof.
  intros w b [p m s a l] t' H Hs. unfold engaged in *. cbn [t_place t_plotted] in H. destruct w; cbn [step] in Hs.
  - destruct p as [| |b'| | |]; [| |destruct b'| | |]; try contradiction; try discriminate; try (injection Hs as <-; cbn [t_place t_plotted]; try exact H; try exact I).
    + destruct a; [exact I|exact H].
    + destruct b; [|discriminate]. injection Hs as <-. cbn [t_place t_plotted]. destruct a; exact I.
    + destruct l; discriminate.
  - destruct m as [[|x r]|r| |]; try discriminate; try (injection Hs as <-; exact H).
    + destruct (holds_condition p); [discriminate|]. injection Hs as <-. cbn [t_place t_plotted]. destruct p; exact H.
    + destruct p; try discriminate. injection Hs as <-. exact H.
Qed.
Lemma engaged_schedule : forall h t, engaged t -> engaged (schedule h t).
Proof.
  induction h as [|[w b] h IH]; intros t H; [exact H|]. unfold schedule. cbn [fold_left fst snd]. destruct (step w b t) as [t'|] eqn:Es; apply IH; [eapply engaged_step; eassumption|exact H].
Qed.
End Plots.
