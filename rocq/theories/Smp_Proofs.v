(** Lemmas about sampling channels. *)
From Coq Require Import List Reals ZArith Lia Lra Bool Arith.
From Verif Require Import Base BaseLemmas Smp_Model Smp_Spec.
Import ListNotations.
Local Open Scope nat_scope.

Lemma concerns_iff : forall f i, concerns f i = true <-> admits f i.
Proof.
  intros [j | ] i; unfold concerns, admits; [ | tauto ]. rewrite Nat.eqb_eq. split; [ intros ->; right; reflexivity | intros [K | K]; [ discriminate | congruence ] ].
Qed.
Lemma called_iff : forall h t r, called h t r = true <-> admits (for_tx h) t /\ admits (for_rx h) r.
Proof. intros h t r. unfold called. rewrite andb_true_iff, !concerns_iff. reflexivity. Qed.

Section Histories.
  Context {B : Type}.
  Variable scale : link -> R -> R.
  Variable pb : link -> R -> B -> B.
  Notation step := (step scale pb). Notation run := (run scale pb).

  Lemma count_snoc : forall (f : op B -> bool) ops o, count f (ops ++ [o]) = count f ops + (if f o then 1 else 0).
  Proof. intros f ops o. unfold count. rewrite filter_app, app_length. cbn [filter]. destruct (f o); reflexivity. Qed.
  Lemma registered_snoc : forall (ops : list (op B)) o id t r,
    registered (ops ++ [o]) id t r <-> (registered ops id t r /\ o <> RemoveHook id) \/ (o = AddHook t r /\ id = count creates_hook ops).
  Proof.
    intros ops o id t r. split.
    - intros [before [after [E [C N]]]]. destruct after as [ | a after'] using rev_ind.
      + apply app_inj_tail in E as [-> ->]. right. split; [ reflexivity | symmetry; exact C ].
      + clear IHafter'. replace (before ++ AddHook t r :: after' ++ [a]) with ((before ++ AddHook t r :: after') ++ [a]) in E by (rewrite <- app_assoc; reflexivity).
        apply app_inj_tail in E as [-> ->]. left. split.
        * exists before, after'. repeat split; [ exact C | ]. intros K. apply N. apply in_or_app. left. exact K.
        * intros ->. apply N. apply in_or_app. right. left. reflexivity.
    - intros [[[before [after [-> [C N]]]] H] | [-> ->]].
      + exists before, (after ++ [o]). split; [ rewrite <- app_assoc; reflexivity | ]. split; [ exact C | ]. intros K. apply in_app_iff in K as [K | [K | []]]; [ exact (N K) | exact (H K) ].
      + exists ops, []. repeat split. intros [].
  Qed.
  Lemma run_snoc : forall w ops o, run w (ops ++ [o]) = fst (step (run w ops) o).
  Proof. intros w ops o. unfold Smp_Model.run. rewrite fold_left_app. reflexivity. Qed.
  Lemma run_app : forall w a b, run w (a ++ b) = run (run w a) b.
  Proof. intros w a b. unfold Smp_Model.run. apply fold_left_app. Qed.

  (** What sampling leaves alone *)
  Lemma take_frame : forall w k l w' o, take (B := B) w k l = (w', o) ->
    hooks w' = hooks w /\ gain w' = gain w /\ created w' = created w /\ realizations w' = realizations w /\ cached w' = cached w.
  Proof.
    intros w k l w' o H. unfold take in H. destruct (nth_error (realizations w) k) as [[hs g] | ]; [ | injection H as <- _; repeat split ].
    destruct l as [l | e]; injection H as <- _; repeat split.
  Qed.
  Lemma take_cases : forall w k l w' o, take (B := B) w k l = (w', o) ->
    (exists e, o = Raise e /\ w' = w) \/
    (exists lk hs g, l = Ok lk /\ nth_error (realizations w) k = Some (hs, g) /\ o = Ok (ASample lk) /\ samples w' = samples w ++ [(lk, g)] /\
       calls w' = calls w ++ notify hs lk (length (samples w))).
  Proof.
    intros w k l w' o H. unfold take in H. destruct (nth_error (realizations w) k) as [[hs g] | ]; [ | injection H as <- <-; left; eexists; split; reflexivity ].
    destruct l as [l | e]; injection H as <- <-; [ right | left; eexists; split; reflexivity ]. exists l, hs, g. repeat split.
  Qed.
  (** What every step does to hooks, gain and realizations *)
  Definition frame (w w' : channel) (o : op B) : Prop :=
    hooks w' = match o with AddHook t r => hooks w ++ [Hook (created w) t r] | RemoveHook id => filter (fun h => negb (Nat.eqb (hook_id h) id)) (hooks w) | _ => hooks w end /\
    created w' = created w + (if creates_hook o then 1 else 0) /\
    gain w' = match o with SetGain g => if Rlt_dec g 0 then gain w else g | _ => gain w end /\
    realizations w' = realizations w ++ (if creates_realization o then [(hooks w, gain w)] else []) /\
    cached w' = match o with Realize true | Propagate _ _ _ _ => Some (length (realizations w)) | _ => cached w end.
  Lemma step_frame : forall w o, frame w (fst (step w o)) o.
  Proof.
    intros w o. unfold frame. destruct o as [t r | id | g | c | | k t r ts args kw | k s t r args kw | s t r ts]; cbn [step creates_hook creates_realization];
      rewrite ?app_nil_r, ?Nat.add_0_r.
    - cbn. repeat split; lia.
    - cbn. repeat split; lia.
    - destruct (Rlt_dec g 0); cbn; repeat split; lia.
    - cbn. repeat split; try lia.
    - cbn. repeat split; lia.
    - destruct (take w k _) as [w' x] eqn:E. apply take_frame in E as [A [C [D [F G]]]]. cbn [fst]. repeat split; assumption.
    - destruct (nth_error (samples w) s) as [[l g] | ]; [ | cbn; repeat split; lia ]. destruct (take w k _) as [w' x] eqn:E. apply take_frame in E as [A [C [D [F G]]]]. cbn [fst]. repeat split; assumption.
    - destruct (take (realize w true) _ _) as [w' x] eqn:E. apply take_frame in E as [A [C [D [F G]]]]. destruct x as [[] | e]; cbn [fst]; rewrite A, C, D, F, G; unfold realize; cbn; repeat split; lia.
  Qed.
  (** The invariant of all histories of a new channel *)
  Definition inv (g : R) (ops : list (op B)) (w : channel) : Prop :=
    created w = count creates_hook ops /\ NoDup (map hook_id (hooks w)) /\ (forall h, In h (hooks w) -> hook_id h < created w) /\
    (forall id t r, In (Hook id t r) (hooks w) <-> registered ops id t r) /\ gain w = gain_after g ops /\ length (realizations w) = count creates_realization ops.
  Lemma gain_after_snoc : forall (ops : list (op B)) g o, gain_after g (ops ++ [o]) = match o with SetGain x => if Rlt_dec x 0 then gain_after g ops else x | _ => gain_after g ops end.
  Proof. induction ops as [ | a ops IH]; intros g o; [ destruct o; reflexivity | ]. cbn [app gain_after]. destruct a; apply IH. Qed.
  Lemma NoDup_map_filter : forall {X Y} (f : X -> Y) p l, NoDup (map f l) -> NoDup (map f (filter p l)).
  Proof.
    intros X Y f p l. induction l as [ | x l IH]; intros H; [ exact H | ]. cbn [map filter] in *. inversion H as [ | ? ? N D]; subst. destruct (p x); [ | apply IH; exact D ]. cbn [map]. constructor; [ | apply IH; exact D ].
    intros K. apply N. apply in_map_iff in K as [y [<- Hy]]. apply filter_In in Hy as [Hy _]. apply in_map. exact Hy.
  Qed.
  Lemma inv_run : forall g w0 ops, new_channel g = Ok w0 -> inv g ops (run w0 ops).
  Proof.
    intros g w0 ops H. unfold new_channel in H. destruct (Rlt_dec g 0); [ discriminate | ]. injection H as <-. induction ops as [ | o ops IH] using rev_ind.
    - unfold inv. cbn. repeat split; try constructor; try contradiction; try (intros ? []). intros [b [a [K _]]]. destruct b; discriminate.
    - rewrite run_snoc. set (w := run _ ops) in *. clearbody w. destruct IH as [A [D [L [I [G N]]]]]. destruct (step_frame w o) as [FH [FC [FG [FR _]]]].
      unfold inv. rewrite !count_snoc, gain_after_snoc, FC, FG, FR, app_length, A, N, G. split; [ reflexivity | ]. split; [ | split; [ | split; [ | split ] ] ].
      + rewrite FH. destruct o as [t r | id | ? | ? | | ? ? ? ? ? ? | ? ? ? ? ? ? | ? ? ? ?]; try exact D.
        * rewrite map_app. cbn [map hook_id]. apply (NoDup_Add (a := created w) (l := map hook_id (hooks w))); [ rewrite <- (app_nil_r (map hook_id (hooks w))) at 1; apply Add_app | ].
          split; [ exact D | ]. intros K. apply in_map_iff in K as [h [E K]]. specialize (L h K). lia.
        * apply NoDup_map_filter. exact D.
      + intros h. rewrite FH. destruct o as [t r | id | ? | ? | | ? ? ? ? ? ? | ? ? ? ? ? ? | ? ? ? ?]; cbn [creates_hook]; intros K; try (specialize (L h K); lia).
        * apply in_app_iff in K as [K | [<- | []]]; [ specialize (L h K); lia | cbn; lia ].
        * apply filter_In in K as [K _]. specialize (L h K). lia.
      + intros id t r. rewrite FH, registered_snoc, <- I. destruct o as [t' r' | id' | ? | ? | | ? ? ? ? ? ? | ? ? ? ? ? ? | ? ? ? ?];
          try (split; [ intros K; left; split; [ exact K | discriminate ] | intros [[K _] | [K _]]; [ exact K | discriminate ] ]).
        * rewrite in_app_iff. split; [ intros [K | [K | []]]; [ left; split; [ exact K | discriminate ] | right; injection K as <- <- <-; split; [ reflexivity | exact A ] ] | ].
          intros [[K _] | [K ->]]; [ left; exact K | right; left; injection K as -> ->; rewrite A; reflexivity ].
        * rewrite filter_In. cbn [hook_id]. rewrite negb_true_iff, Nat.eqb_neq. split; [ intros [K M]; left; split; [ exact K | congruence ] | intros [[K M] | [K _]]; [ split; [ exact K | congruence ] | discriminate ] ].
      + destruct o; reflexivity.
      + destruct (creates_realization o); cbn [length]; lia.
  Qed.
  (** Realizations are never changed afterwards *)
  Lemma realizations_grow : forall ops w, exists more, realizations (run w ops) = realizations w ++ more.
  Proof.
    induction ops as [ | o ops IH] using rev_ind; intros w; [ exists []; rewrite app_nil_r; reflexivity | ]. rewrite run_snoc. destruct (IH w) as [m E]. destruct (step_frame (run w ops) o) as [_ [_ [_ [FR _]]]].
    rewrite FR, E, <- app_assoc. eexists. reflexivity.
  Qed.
  Lemma realization_of : forall g w0 pre o post, new_channel g = Ok w0 -> creates_realization o = true ->
    nth_error (realizations (run w0 (pre ++ o :: post))) (count creates_realization pre) = Some (hooks (run w0 pre), gain_after g pre).
  Proof.
    intros g w0 pre o post H Ho. destruct (inv_run g w0 pre H) as [_ [_ [_ [_ [G N]]]]]. rewrite run_app. cbn [Smp_Model.run fold_left]. change (fold_left _ post ?x) with (run x post).
    destruct (realizations_grow post (fst (step (run w0 pre) o))) as [m ->]. destruct (step_frame (run w0 pre) o) as [_ [_ [_ [-> _]]]]. rewrite Ho, <- app_assoc, <- N, G.
    rewrite nth_error_app2 by lia. rewrite Nat.sub_diag. reflexivity.
  Qed.
  Lemma notify_spec : forall g w0 ops l s, new_channel g = Ok w0 -> notified ops (device_id (tx l)) (device_id (rx l)) s (notify (hooks (run w0 ops)) l s).
  Proof.
    intros g w0 ops l s H. destruct (inv_run g w0 ops H) as [_ [D [_ [I _]]]]. unfold notify, notified. split.
    - apply (NoDup_map_inv fst). rewrite map_map. cbn [fst]. apply NoDup_map_filter. exact D.
    - intros id s'. rewrite in_map_iff. split.
      + intros [[i t r] [E K]]. apply filter_In in K as [K C]. apply called_iff in C. cbn in E, C. injection E as <- <-. split; [ reflexivity | ]. exists t, r. split; [ apply I; exact K | exact C ].
      + intros [-> [t [r [K C]]]]. exists (Hook id t r). split; [ reflexivity | ]. apply filter_In. split; [ apply I; exact K | apply called_iff; exact C ].
  Qed.
  Lemma link_ids : forall t r ts args kw l, sampled_link t r ts args kw = Ok l -> device_id (tx l) = identifier t /\ device_id (rx l) = identifier r.
  Proof.
    intros t r ts args kw l H. unfold sampled_link in H. destruct (float_arg args 0) as [c | e]; [ | discriminate ]. destruct (float_arg args 1) as [b | e]; [ | discriminate ]. cbn [bind] in H.
    destruct t, r; try discriminate; injection H as <-; split; reflexivity.
  Qed.
  Lemma reciprocal_ids : forall s t r args kw l, reciprocal_link s t r args kw = Ok l -> device_id (tx l) = identifier t /\ device_id (rx l) = identifier r.
  Proof.
    intros s t r args kw l H. unfold reciprocal_link in H. destruct t, r; try discriminate; destruct (float_arg args 0) as [c | e]; try discriminate; destruct (float_arg args 1) as [b | e]; try discriminate; cbn [bind] in H.
    - destruct (float_arg args 2) as [z | e]; [ | discriminate ]. cbn [bind] in H. injection H as <-. split; reflexivity.
    - injection H as <-. split; reflexivity.
  Qed.
End Histories.
