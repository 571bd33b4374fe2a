(** Property theorems for hooks (C44) and random nodes (C43). *)
From Coq Require Import List Arith Bool ZArith Lia Permutation.
From Verif Require Import Base BaseLemmas Core_Model Core_Spec Core_Proofs.
Import ListNotations.

(** C44: after any history of registrations, a notification with callbacks that do
    not register anything themselves invokes exactly the registered hooks, each
    once, and leaves the registrations alone - in whatever order the set of hooks
    is iterated. *)
Theorem C44_every_registered_hook_is_notified_once :
  forall (V : Type) (react : nat -> V -> option hop) (order : list nat -> list nat)
         (ops : list hop) (hb : nat) (v : V),
    (forall l, Permutation (order l) l) -> (forall cb, react cb v = None) ->
    exists invoked : list nat,
      notify V react order (run_hops ops) hb v = (run_hops ops, invoked, None) /\
      NoDup invoked /\ (forall h, In h invoked <-> registered ops hb h).
Proof.
  intros V react order ops hb v Hord Hq. exists (order (hs_sets (run_hops ops) hb)).
  assert (Hin : forall h, In h (order (hs_sets (run_hops ops) hb)) <-> registered ops hb h).
  { intros h. rewrite <- sets_registered. split; apply Permutation_in; [|symmetry]; apply Hord. }
  split; [|split; [|auto]].
  - unfold notify. apply notify_quiet; [intros; apply Hq|].
    intros h Hh. apply Hin in Hh. apply registered_exists in Hh.
    rewrite length_created in Hh. now apply nth_error_Some.
  - eapply Permutation_NoDup; [symmetry; apply Hord|]. apply sets_NoDup.
Qed.
Print Assumptions C44_every_registered_hook_is_notified_once.

(** Two callbacks at hookable 0, one removed and one added again. *)
Definition ex_hops : list hop :=
  [AddCallback 0 7; AddCallback 0 8; AddCallback 1 9; RemoveHook 0 0; AddHook 0 2; Unhook 2].
Example C44_hypotheses_met :
  (forall l : list nat, Permutation (rev l) l) /\
  notify nat (fun _ _ => None) (@rev nat) (run_hops ex_hops) 0 5 = (run_hops ex_hops, [2; 1], None) /\
  registered ex_hops 0 1 /\ ~ registered ex_hops 0 0.
Proof.
  split; [intros; symmetry; apply Permutation_rev|]. split; [reflexivity|].
  rewrite <- !sets_registered. cbn. intuition lia.
Qed.

(** [hook.remove()] reaches only the hookable the hook was created for: registered
    with a second hookable it keeps being called. *)
Theorem C44_remove_detaches_everywhere_refuted :
  exists (ops : list hop) (h hb : nat), registered (ops ++ [Unhook h]) hb h.
Proof. exists [AddCallback 1 9; AddHook 0 0], 0, 0. rewrite <- sets_registered. cbn. auto. Qed.
Print Assumptions C44_remove_detaches_everywhere_refuted.

(** A callback that changes the registrations of the hookable that is just being
    notified (e.g. removes its own hook) aborts the notification: it raises, and
    every hook later in the iteration order misses the event. *)
Theorem C44_registration_during_notification_aborts_it :
  forall (V : Type) (react : nat -> V -> option hop) (order : list nat -> list nat)
         (ops : list hop) (hb : nat) (v : V) (pre post : list nat) (h : nat) (k : hook) (o : hop),
    (forall l, Permutation (order l) l) ->
    order (hs_sets (run_hops ops) hb) = pre ++ h :: post ->
    (forall h' k', In h' pre -> nth_error (hs_hooks (run_hops ops)) h' = Some k' -> react (hk_callback k') v = None) ->
    nth_error (hs_hooks (run_hops ops)) h = Some k -> react (hk_callback k) v = Some o ->
    o = RemoveHook hb h \/ (exists cb, o = AddCallback hb cb) ->
    exists s, notify V react order (run_hops ops) hb v = (s, pre ++ [h], Some RuntimeError).
Proof.
  intros V react order ops hb v pre post h k o Hord Ho Hq Hk Hr Hop.
  exists (apply_hop (run_hops ops) o). unfold notify. rewrite Ho.
  assert (Hreg : forall x, In x (pre ++ h :: post) -> registered ops hb x).
  { intros x Hx. apply sets_registered. rewrite <- Ho in Hx. eapply Permutation_in; eauto. }
  assert (Hex : forall x, In x (pre ++ h :: post) -> nth_error (hs_hooks (run_hops ops)) x <> None).
  { intros x Hx. apply Hreg, registered_exists in Hx. rewrite length_created in Hx. now apply nth_error_Some. }
  apply notify_abort with (k := k); auto.
  - intros h' Hh'. apply Hex. apply in_app_iff; auto.
  - destruct Hop as [->|[cb ->]]; cbn [apply_hop].
    + assert (Hin : In h (hs_sets (run_hops ops) hb)).
      { apply sets_registered, Hreg. apply in_app_iff; right; left; auto. }
      unfold remove_hook, set_update; cbn [hs_sets]. rewrite Nat.eqb_refl. intros E.
      assert (Hlt : length (filter (fun x => negb (x =? h)) (hs_sets (run_hops ops) hb)) < length (hs_sets (run_hops ops) hb)).
      { clear - Hin. induction (hs_sets (run_hops ops) hb) as [|y l IH]; [destruct Hin|]. cbn.
        destruct (Nat.eqb_spec y h) as [->|Hne]; cbn.
        - assert (length (filter (fun x => negb (x =? h)) l) <= length l); [|lia].
          { clear. induction l as [|z l IH]; cbn; [lia|]. destruct (negb (z =? h)); cbn; lia. }
        - destruct Hin as [->|Hin]; [congruence|]. specialize (IH Hin); lia. }
      lia.
    + unfold add_callback, add_hook, set_update; cbn [hs_sets hs_hooks]. rewrite Nat.eqb_refl.
      destruct (mem _ _) eqn:E.
      * apply mem_In, sets_registered, registered_exists in E. rewrite length_created in E. lia.
      * rewrite app_length; cbn; lia.
Qed.
Print Assumptions C44_registration_during_notification_aborts_it.

(** Hook 0 removes itself when called; hook 1 never hears of the event. *)
Example C44_self_removal :
  notify nat (fun cb _ => if cb =? 7 then Some (RemoveHook 0 0) else None) (fun l => l)
         (run_hops [AddCallback 0 7; AddCallback 0 8]) 0 5 =
  (run_hops [AddCallback 0 7; AddCallback 0 8; RemoveHook 0 0], [0], Some RuntimeError).
Proof. reflexivity. Qed.

(** C43: once a node's [random_mother] was set, every draw of the node is a draw
    of its mother, whatever happens in between, as long as the node's own seed and
    mother are not assigned again. *)
Theorem C43_nodes_draw_from_their_mother :
  forall (V : Type) (stream : source -> nat -> V) (before after : list rop) (n m count : nat),
    acyclic_ops stream rs_empty (before ++ SetMother n (Some m) :: after) ->
    n < length (rs_nodes (fst (rrun V stream rs_empty before))) ->
    Forall (fun o => ~ reassigns n o) after ->
    let s := fst (rrun V stream rs_empty (before ++ SetMother n (Some m) :: after)) in
    draw V stream s n count = draw V stream s m count /\
    exists vs, snd (draw V stream s n count) = Ok vs.
Proof.
  intros V stream before after n m count Hac Hn Hno s.
  assert (Hall : all_rooted s).
  { apply run_all_rooted; auto. intros x Hx. cbn in Hx; lia. }
  assert (Hc : exists nd', nth_error (rs_nodes s) n = Some nd' /\ rn_gen nd' = None /\ rn_mother nd' = Some m).
  { subst s. rewrite run_app. destruct (rrun V stream rs_empty before) as [s0 o0]; cbn [fst] in Hn.
    destruct (nth_error (rs_nodes s0) n) as [nd|] eqn:E; [|apply nth_error_None in E; lia].
    cbn [rrun rstep]. rewrite E.
    set (s1 := mkRS _ _).
    assert (Hn1 : nth_error (rs_nodes s1) n = Some (mkRN (Some m) None (rn_seed nd))).
    { unfold s1; cbn [rs_nodes]. rewrite nth_replace by auto. now rewrite Nat.eqb_refl. }
    pose proof (child_follows V stream s1 n _ m after Hn1 eq_refl eq_refl Hno) as H.
    destruct (rrun V stream s1 after) as [s2 o2]; auto. }
  destruct Hc as (nd & Hnd & Hg & Hm).
  assert (Hmr : exists r, rooted s m r).
  { destruct (Hall n) as [r Hr]; [apply nth_error_Some; congruence|]. inversion Hr; subst; [congruence|].
    exists r. congruence. }
  destruct Hmr as [r Hr]. destruct (rooted_gen s m r Hr) as (nr & src & pos & Hnr & Hgr).
  pose proof (draw_rooted V stream s m r count nr src pos Hr Hnr Hgr) as E.
  assert (E' : draw V stream s n count = draw V stream s m count).
  { apply (child_draw V stream s n nd m count Hnd Hg Hm). rewrite E. eexists; reflexivity. }
  split; auto. rewrite E', E. eexists; reflexivity.
Qed.
Print Assumptions C43_nodes_draw_from_their_mother.

Definition ex_stream (s : source) (k : nat) : Z :=
  match s with Seeded z => (z * 100 + Z.of_nat k)%Z | Entropy e => (- Z.of_nat (e * 100 + k) - 1)%Z end.
Definition ex_before : list rop := [New None (Some 4%Z); New None None; Draw 1 2].
Definition ex_after : list rop := [Draw 1 3; Draw 0 1; New (Some 0) None; SetSeed 0 (Some 5%Z)].
Example C43_mother_hypotheses_met :
  acyclic_ops ex_stream rs_empty (ex_before ++ SetMother 1 (Some 0) :: ex_after) /\
  Forall (fun o => ~ reassigns 1 o) ex_after /\
  snd (rrun Z ex_stream rs_empty (ex_before ++ SetMother 1 (Some 0) :: ex_after)) =
    [Ok (1, [-1; -2]%Z); Ok (0, [400; 401; 402]%Z); Ok (0, [403]%Z)].
Proof.
  split; [|split; [|reflexivity]].
  - cbn. repeat split; try lia. intros H. inversion H; subst. cbn in *. match goal with E : Some _ = Some _ |- _ => injection E as <- end. discriminate.
  - repeat constructor; cbn; lia.
Qed.

(** Every draw of a hierarchy without cycles succeeds. *)
Theorem C43_draws_succeed_without_cycles :
  forall (V : Type) (stream : source -> nat -> V) (ops : list rop) (n count : nat),
    acyclic_ops stream rs_empty ops ->
    n < length (rs_nodes (fst (rrun V stream rs_empty ops))) ->
    exists vs, snd (draw V stream (fst (rrun V stream rs_empty ops)) n count) = Ok vs /\ length (snd vs) = count.
Proof.
  intros V stream ops n count Hac Hn. set (s := fst (rrun V stream rs_empty ops)) in *.
  assert (Hall : all_rooted s).
  { apply run_all_rooted; auto. intros x Hx. cbn in Hx; lia. }
  destruct (Hall n Hn) as [r Hr]. destruct (rooted_gen s n r Hr) as (nr & src & pos & Hnr & Hgr).
  rewrite (draw_rooted V stream s n r count nr src pos Hr Hnr Hgr). eexists; split; [reflexivity|].
  cbn. now rewrite map_length, seq_length.
Qed.
Print Assumptions C43_draws_succeed_without_cycles.

(** Nothing prevents a cycle of mothers; drawing then raises. *)
Theorem C43_cyclic_mothers_are_rejected_refuted :
  exists (ops : list rop) (n : nat), forall (V : Type) (stream : source -> nat -> V),
    snd (rrun V stream rs_empty (ops ++ [Draw n 1])) = [Raise RecursionError].
Proof.
  exists [New None (Some 1%Z); New None (Some 2%Z); SetMother 0 (Some 1); SetMother 1 (Some 0)], 0.
  reflexivity.
Qed.
Print Assumptions C43_cyclic_mothers_are_rejected_refuted.

(** After seeding a node, the numbers drawn from its generator - by the node itself
    and by all nodes below it - are the stream of that seed from its beginning,
    whatever the history before and the other nodes do. *)
Theorem C43_seed_determines_the_stream :
  forall (V : Type) (stream : source -> nat -> V) (before after : list rop) (n : nat) (seed : Z),
    n < length (rs_nodes (fst (rrun V stream rs_empty before))) ->
    Forall (fun o => ~ reassigns n o) after ->
    let s := fst (rrun V stream rs_empty (before ++ [SetSeed n (Some seed)])) in
    exists k, drawn_from n (snd (rrun V stream s after)) = map (stream (Seeded seed)) (seq 0 k).
Proof.
  intros V stream before after n seed Hn Hno s.
  assert (Hs : exists nd, nth_error (rs_nodes s) n = Some nd /\ rn_gen nd = Some (Seeded seed, 0)).
  { subst s. rewrite run_app. destruct (rrun V stream rs_empty before) as [s0 o0]; cbn [fst] in Hn.
    destruct (nth_error (rs_nodes s0) n) as [nd|] eqn:E; [|apply nth_error_None in E; lia].
    cbn [rrun rstep]. rewrite E. cbn [default_rng fst rs_nodes].
    rewrite nth_replace by auto. rewrite Nat.eqb_refl. eexists; split; reflexivity. }
  destruct Hs as (nd & Hnd & Hg).
  destruct (drawn_stream V stream after s n nd _ _ Hnd Hg Hno) as (k & Hk & _).
  eauto.
Qed.
Print Assumptions C43_seed_determines_the_stream.

(** If every node is created and re-seeded with seeds, equal histories draw equal
    numbers, whatever entropy the operating system provides. *)
Theorem C43_equal_seeds_and_histories_draw_equal_numbers :
  forall (V : Type) (stream stream' : source -> nat -> V) (ops : list rop),
    (forall z k, stream (Seeded z) k = stream' (Seeded z) k) ->
    Forall always_seeded ops ->
    snd (rrun V stream rs_empty ops) = snd (rrun V stream' rs_empty ops).
Proof.
  intros V stream stream' ops Ha Ho. rewrite (run_seeded V stream stream' Ha ops rs_empty); auto.
  intros x nd Hx. cbn in Hx. destruct x; discriminate.
Qed.
Print Assumptions C43_equal_seeds_and_histories_draw_equal_numbers.

Example C43_seeded_example :
  Forall always_seeded [New None (Some 4%Z); New None (Some 9%Z); Draw 1 1; SetMother 1 (Some 0); Draw 1 2; SetMother 1 None; Draw 1 2] /\
  snd (rrun Z ex_stream rs_empty [New None (Some 4%Z); New None (Some 9%Z); Draw 1 1; SetMother 1 (Some 0); Draw 1 2; SetMother 1 None; Draw 1 2])
   = [Ok (1, [900%Z]); Ok (0, [400; 401]%Z); Ok (1, [900; 901]%Z)].
Proof. split; [repeat constructor; cbn; congruence|reflexivity]. Qed.

(** A mother passed to the constructor is ignored: the node draws from a
    generator of its own although it has no seed. *)
Theorem C43_constructor_mother_refuted :
  exists (ops : list rop) (n m : nat), forall (V : Type) (stream : source -> nat -> V),
    nth_error (rs_nodes (fst (rrun V stream rs_empty ops))) n = Some (mkRN (Some m) (Some (Entropy 0, 0)) None) /\
    snd (rrun V stream rs_empty (ops ++ [Draw n 1])) = [Ok (n, [stream (Entropy 0) 0])] /\
    snd (rrun V stream rs_empty (ops ++ [Draw m 1])) = [Ok (m, [stream (Seeded 4%Z) 0])].
Proof. exists [New None (Some 4%Z); New (Some 0) None], 1, 0. intros; repeat split. Qed.
Print Assumptions C43_constructor_mother_refuted.
