(** Proofs for the Monte Carlo queue manager. *)
From Coq Require Import List Arith Bool Lia.
From Verif Require Import Base BaseLemmas Monte_Model Monte_Spec.
Import ListNotations.

Lemma coord_eqb_spec a b : reflect (a = b) (coord_eqb a b).
Proof. unfold coord_eqb; destruct (list_eq_dec Nat.eq_dec a b); constructor; auto. Qed.
Lemma coord_eqb_refl a : coord_eqb a a = true.
Proof. destruct (coord_eqb_spec a a); auto. Qed.
Lemma coord_eqb_eq a b : coord_eqb a b = true <-> a = b.
Proof. destruct (coord_eqb_spec a b); split; auto; discriminate. Qed.
Lemma coord_eqb_neq a b : coord_eqb a b = false <-> a <> b.
Proof. destruct (coord_eqb_spec a b); split; auto; try discriminate; tauto. Qed.

(** ** The grid *)
Lemma ndindex_spec dims c : In c (ndindex dims) <-> in_grid dims c.
Proof.
  revert c; induction dims as [|n t IH]; intros c; unfold in_grid in *; cbn.
  - split; [intros [<-|[]]; constructor | intros H; inversion H; auto].
  - rewrite in_flat_map; split.
    + intros (i & Hi & Hc); apply in_map_iff in Hc as (x & <- & Hx).
      apply in_seq in Hi; constructor; [lia | now apply IH].
    + intros H; inversion H as [|i y x t' Hlt Hx]; subst.
      exists i; split; [apply in_seq; lia | apply in_map_iff; exists x; split; auto; now apply IH].
Qed.

Lemma NoDup_ndindex dims : NoDup (ndindex dims).
Proof.
  induction dims as [|n t IH]; cbn; [repeat constructor; auto|].
  generalize 0 as s; induction n as [|n IHn]; intros s; cbn; [constructor|].
  apply NoDup_app_iff || idtac.
  assert (H1 : NoDup (map (cons s) (ndindex t))).
  { apply FinFun.Injective_map_NoDup; auto; intros x y H; injection H; auto. }
  assert (H2 : forall x, In x (map (cons s) (ndindex t)) ->
                ~ In x (flat_map (fun i => map (cons i) (ndindex t)) (seq (S s) n))).
  { intros x Hx Hf; apply in_map_iff in Hx as (y & <- & _).
    apply in_flat_map in Hf as (i & Hi & Hy); apply in_map_iff in Hy as (z & Hz & _).
    injection Hz as -> ->; apply in_seq in Hi; lia. }
  induction H1 as [|x l Hx Hl IHl]; cbn; [apply IHn|].
  constructor.
  - intros Hin; apply in_app_iff in Hin as [Hin|Hin]; [auto|].
    apply (H2 x); [now left | auto].
  - apply IHl; intros y Hy; apply H2; now right.
Qed.

Lemma length_ndindex dims : length (ndindex dims) = fold_right Nat.mul 1 dims.
Proof.
  induction dims as [|n t IH]; cbn; auto.
  rewrite <- IH; generalize 0; induction n as [|n IHn]; intros s; cbn; auto.
  rewrite app_length, map_length, IHn; auto.
Qed.

(** ** Removing sections *)
Lemma in_remove_first c x l : NoDup l -> In x (remove_first c l) <-> In x l /\ x <> c.
Proof.
  induction 1 as [|y l Hy Hl IH]; cbn; [tauto|].
  destruct (coord_eqb_spec y c) as [->|Hne].
  - split; [intros H; split; auto; intros ->; auto | intros [[->|H] Hn]; tauto].
  - cbn; rewrite IH; split; [intros [->|[H1 H2]]; auto | tauto].
Qed.
Lemma NoDup_remove_first c l : NoDup l -> NoDup (remove_first c l).
Proof.
  induction 1 as [|y l Hy Hl IH]; cbn; [constructor|].
  destruct (coord_eqb y c); auto; constructor; auto.
  rewrite in_remove_first by auto; tauto.
Qed.

(** ** Counting emissions *)
Lemma emissions_app c a b : emissions c (a ++ b) = emissions c a + emissions c b.
Proof. unfold emissions; rewrite filter_app, app_length; auto. Qed.
Lemma emissions_emit c x t : emissions c (Emit x :: t) = (if coord_eqb x c then 1 else 0) + emissions c t.
Proof. unfold emissions; cbn; destruct (coord_eqb x c); auto. Qed.
Lemma emissions_disabled c x t : emissions c (Disabled x :: t) = emissions c t.
Proof. reflexivity. Qed.
Lemma emissions_zero c ev : emissions c ev = 0 <-> ~ In (Emit c) ev.
Proof.
  unfold emissions; induction ev as [|[x|x] t IH]; cbn; [tauto| |].
  - destruct (coord_eqb_spec x c) as [->|Hne]; cbn.
    + split; [lia | intros H; exfalso; auto].
    + rewrite IH; split; [intros H [E|E]; [congruence|auto] | intros H E; auto].
  - rewrite IH; split; [intros H [E|E]; [discriminate|auto] | intros H E; auto].
Qed.

(** ** Invariant of the queue manager.
    [ds]: sections disabled by request so far; [ev]: events so far. *)
Record qinv (dims : list nat) (N : nat) (ev : list qevent) (q : queue) : Prop := {
  qi_samples : q_samples q = N;
  qi_nodup : NoDup (q_active q);
  qi_grid : forall c, In c (q_active q) -> in_grid dims c;
  qi_count : forall c, q_count q c = emissions c ev;
  qi_active : forall c, In c (q_active q) -> emissions c ev < N /\ ~ In (Disabled c) ev;
  qi_done : forall c, in_grid dims c -> ~ In c (q_active q) ->
                      emissions c ev = N \/ In (Disabled c) ev;
  qi_le : forall c, emissions c ev <= N;
  qi_in : forall c, In (Emit c) ev -> in_grid dims c;
  qi_after : forall c a b, ev = a ++ Disabled c :: b -> ~ In (Emit c) b }.

Lemma qinv_new dims N bs : 1 <= N -> qinv dims N [] (queue_new dims N bs).
Proof.
  intros HN; constructor; cbn; auto.
  - apply NoDup_ndindex.
  - intros c; apply ndindex_spec.
  - intros c H Hn; destruct Hn; now apply ndindex_spec.
  - lia.
  - intros c [].
  - intros c [|? a] b H; discriminate.
Qed.

Lemma app_last_cases {X} (x y : X) ev a b :
  ev ++ [x] = a ++ y :: b -> (exists b', b = b' ++ [x] /\ ev = a ++ y :: b') \/ (b = [] /\ x = y /\ ev = a).
Proof.
  intros H; destruct (exists_last (l := y :: b)) as (l & z & Hl); [discriminate|].
  destruct b as [|w b] using rev_ind.
  - right; change (a ++ [y]) with (a ++ [y]) in H; apply app_inj_tail in H as [-> ->]; auto.
  - left; exists b. rewrite app_comm_cons, app_assoc in H; apply app_inj_tail in H as [-> ->]; auto.
Qed.

Lemma qinv_disable dims N ev q c :
  qinv dims N ev q -> qinv dims N (ev ++ [Disabled c]) (disable_section q c).
Proof.
  intros [Hs Hnd Hg Hc Ha Hd Hl Hi Haf].
  assert (He : forall x, emissions x (ev ++ [Disabled c]) = emissions x ev).
  { intros x; rewrite emissions_app, emissions_disabled; cbn; lia. }
  constructor; cbn; auto.
  - now apply NoDup_remove_first.
  - intros x Hx; apply in_remove_first in Hx as [Hx _]; auto.
  - intros x; now rewrite He.
  - intros x Hx; apply in_remove_first in Hx as [Hx Hne]; auto.
    rewrite He; split; [now apply Ha|].
    rewrite in_app_iff; intros [H|[H|[]]]; [now apply (Ha x)|congruence].
  - intros x Hx Hn; rewrite He, in_app_iff.
    destruct (coord_eqb_spec x c) as [->|Hne]; [right; right; now left|].
    rewrite in_remove_first in Hn by auto.
    destruct (Hd x Hx) as [H|H]; [intros H; tauto | auto | auto].
  - intros x; now rewrite He.
  - intros x; rewrite in_app_iff; intros [H|[H|[]]]; [auto|discriminate].
  - intros x a b H; apply app_last_cases in H as [(b' & -> & ->)|(-> & H & ->)]; [|auto].
    rewrite in_app_iff; intros [H|[H|[]]]; [|discriminate]. now apply (Haf x a b').
Qed.

(** Handing out an active section. *)
Lemma qinv_emit dims N ev q c :
  qinv dims N ev q -> In c (q_active q) ->
  let q1 := mkQueue (q_active q) (bump (q_count q) c) (q_samples q) (q_batch q) in
  qinv dims N (ev ++ [Emit c])
    (if q_samples q <=? S (q_count q c) then disable_section q1 c else q1).
Proof.
  intros [Hs Hnd Hg Hc Ha Hd Hl Hi Haf] Hin q1.
  assert (He : forall x, emissions x (ev ++ [Emit c]) = emissions x ev + if coord_eqb c x then 1 else 0).
  { intros x; rewrite emissions_app, emissions_emit; cbn; lia. }
  assert (Hbump : forall x, bump (q_count q) c x = emissions x (ev ++ [Emit c])).
  { intros x; rewrite He; unfold bump; rewrite Hc.
    destruct (coord_eqb_spec x c), (coord_eqb_spec c x); subst; try congruence; lia. }
  destruct (Ha c Hin) as [Hlt Hnd'].
  assert (Hle' : forall x, emissions x (ev ++ [Emit c]) <= N).
  { intros x; rewrite He; destruct (coord_eqb_spec c x) as [<-|]; [lia|]; specialize (Hl x); lia. }
  assert (Hin' : forall x, In (Emit x) (ev ++ [Emit c]) -> in_grid dims x).
  { intros x; rewrite in_app_iff; intros [H|[H|[]]]; [auto|injection H as <-; auto]. }
  assert (Haf' : forall x a b, ev ++ [Emit c] = a ++ Disabled x :: b -> ~ In (Emit x) b).
  { intros x a b H; apply app_last_cases in H as [(b' & -> & ->)|(-> & H & ->)]; [|discriminate].
    rewrite in_app_iff; intros [H|[H|[]]]; [now apply (Haf x a b')|].
    injection H as <-; apply Hnd', in_app_iff; right; now left. }
  assert (Hds : forall x, In (Disabled x) (ev ++ [Emit c]) <-> In (Disabled x) ev).
  { intros x; rewrite in_app_iff; split; [intros [H|[H|[]]]; [auto|discriminate]|auto]. }
  destruct (q_samples q <=? S (q_count q c)) eqn:Hfull;
    [apply Nat.leb_le in Hfull | apply Nat.leb_gt in Hfull]; rewrite Hs, Hc in Hfull.
  - constructor; cbn; auto.
    + now apply NoDup_remove_first.
    + intros x Hx; apply in_remove_first in Hx as [Hx _]; auto.
    + intros x Hx; apply in_remove_first in Hx as [Hx Hne]; auto.
      rewrite He, Hds. destruct (coord_eqb_spec c x); [congruence|].
      specialize (Ha x Hx); rewrite Nat.add_0_r; auto.
    + intros x Hx Hn; rewrite He, Hds. rewrite in_remove_first in Hn by auto.
      destruct (coord_eqb_spec c x) as [<-|Hne]; [left; lia|].
      rewrite Nat.add_0_r; apply Hd; auto; intros H; apply Hn; split; auto.
  - constructor; cbn; auto.
    + intros x Hx; rewrite He, Hds. destruct (coord_eqb_spec c x) as [<-|Hne].
      * split; auto; lia.
      * rewrite Nat.add_0_r; auto.
    + intros x Hx Hn; rewrite He, Hds.
      destruct (coord_eqb_spec c x) as [<-|Hne]; [tauto|].
      rewrite Nat.add_0_r; auto.
Qed.

Lemma qinv_loop dims N n : forall t skip ev q q' b,
  qinv dims N ev q -> q_active q <> [] -> next_loop n t skip q = (q', b) ->
  qinv dims N (ev ++ map Emit b) q' /\ q_batch q' = q_batch q /\ (1 <= n -> b <> []).
Proof.
  induction n as [|n IH]; intros t skip ev q q' b Hq Hne H; cbn [next_loop] in H.
  - injection H as <- <-; cbn; rewrite app_nil_r; split; [auto|split; [auto|lia]].
  - set (i := (t - skip) mod length (q_active q)) in *.
    set (c := nth i (q_active q) []) in *.
    assert (Hin : In c (q_active q)).
    { apply nth_In, Nat.mod_upper_bound; destruct (q_active q); cbn; congruence. }
    pose proof (qinv_emit _ _ _ _ _ Hq Hin) as He; cbv zeta in He.
    set (q1 := mkQueue (q_active q) (bump (q_count q) c) (q_samples q) (q_batch q)) in *.
    assert (Hstep : forall b', (ev ++ [Emit c]) ++ map Emit b' = ev ++ map Emit (c :: b')).
    { intros b'; rewrite <- app_assoc; auto. }
    destruct (q_samples q <=? S (q_count q c)).
    + destruct (q_active (disable_section q1 c)) as [|y l] eqn:Hact.
      * injection H as <- <-; split; [auto|split; [auto|discriminate]].
      * destruct (next_loop n (S t) (S skip) (disable_section q1 c)) as [q3 b3] eqn:Hn.
        injection H as <- <-.
        destruct (IH _ _ _ _ _ _ He ltac:(rewrite Hact; discriminate) Hn) as (H1 & H2 & _).
        rewrite <- Hstep; split; [auto|split; [auto|discriminate]].
    + destruct (next_loop n (S t) skip q1) as [q3 b3] eqn:Hn.
      injection H as <- <-.
      destruct (IH _ _ _ _ _ _ He Hne Hn) as (H1 & H2 & _).
      rewrite <- Hstep; split; [auto|split; [auto|discriminate]].
Qed.

Lemma qinv_next dims N ev q q' b :
  qinv dims N ev q -> next_batch q = (q', b) ->
  qinv dims N (ev ++ map Emit b) q' /\ q_batch q' = q_batch q /\
  (1 <= q_batch q -> b = [] -> q_active q = [] /\ q' = q).
Proof.
  unfold next_batch; intros Hq H.
  destruct (q_active q) as [|y l] eqn:Hact.
  - injection H as <- <-; cbn; rewrite app_nil_r; auto.
  - destruct (qinv_loop _ _ _ _ _ _ _ _ _ Hq ltac:(rewrite Hact; discriminate) H) as (H1 & H2 & H3).
    split; [auto|split; [auto|]]; intros Hb ->; exfalso; now apply H3.
Qed.

Lemma qinv_run dims N ops : forall ev q q' ev',
  qinv dims N ev q -> q_run q ops = (q', ev') ->
  qinv dims N (ev ++ ev') q' /\ q_batch q' = q_batch q.
Proof.
  induction ops as [|[|c] ops IH]; intros ev q q' ev' Hq H; cbn in H.
  - injection H as <- <-; rewrite app_nil_r; auto.
  - destruct (next_batch q) as [q1 b] eqn:Hn; destruct (q_run q1 ops) as [q2 ev2] eqn:Hr.
    injection H as <- <-.
    destruct (qinv_next _ _ _ _ _ _ Hq Hn) as (H1 & H2 & _).
    destruct (IH _ _ _ _ H1 Hr) as [H3 H4].
    rewrite app_assoc; split; auto; congruence.
  - destruct (q_run (disable_section q c) ops) as [q2 ev2] eqn:Hr.
    injection H as <- <-.
    destruct (IH _ _ _ _ (qinv_disable _ _ _ _ c Hq) Hr) as [H3 H4].
    rewrite <- app_assoc in H3; split; auto.
Qed.

(** ** Termination: every request either hands out work or finds none left. *)
Definition num_next (ops : list qop) : nat :=
  length (filter (fun o => match o with Next => true | Disable _ => false end) ops).

Definition num_emits (ev : list qevent) : nat :=
  length (filter (fun e => match e with Emit _ => true | Disabled _ => false end) ev).

Lemma num_emits_app a b : num_emits (a ++ b) = num_emits a + num_emits b.
Proof. unfold num_emits; rewrite filter_app, app_length; auto. Qed.
Lemma num_emits_map b : num_emits (map Emit b) = length b.
Proof. induction b; unfold num_emits in *; cbn; auto. Qed.

(** Exhaustion is permanent. *)
Lemma q_run_exhausted ops : forall q q' ev,
  q_active q = [] -> q_run q ops = (q', ev) -> q_active q' = [].
Proof.
  induction ops as [|[|c] ops IH]; intros q q' ev Hq H; cbn in H.
  - now injection H as <- <-.
  - unfold next_batch in H; rewrite Hq in H.
    destruct (q_run q ops) as [q2 ev2] eqn:Hr; injection H as <- <-; eauto.
  - destruct (q_run (disable_section q c) ops) as [q2 ev2] eqn:Hr; injection H as <- <-.
    refine (IH (disable_section q c) q2 ev2 _ Hr). cbn; rewrite Hq; auto.
Qed.

Lemma q_run_progress dims N ops : forall ev q q' ev',
  qinv dims N ev q -> 1 <= q_batch q -> q_run q ops = (q', ev') ->
  q_active q' = [] \/ num_next ops <= num_emits ev'.
Proof.
  induction ops as [|[|c] ops IH]; intros ev q q' ev' Hq Hb H; cbn in H.
  - right; unfold num_next; cbn; lia.
  - destruct (next_batch q) as [q1 b] eqn:Hn; destruct (q_run q1 ops) as [q2 ev2] eqn:Hr.
    injection H as <- <-.
    destruct (qinv_next _ _ _ _ _ _ Hq Hn) as (H1 & H2 & H3).
    destruct b as [|c b].
    + destruct (H3 Hb eq_refl) as [Ha ->]; left; eapply q_run_exhausted; eauto.
    + destruct (IH _ _ _ _ H1 ltac:(lia) Hr) as [Ha|Hle]; [now left|right].
      rewrite num_emits_app, num_emits_map; unfold num_next in *; cbn [filter length]; lia.
  - destruct (q_run (disable_section q c) ops) as [q2 ev2] eqn:Hr.
    injection H as <- <-.
    destruct (IH _ _ _ _ (qinv_disable _ _ _ _ c Hq) Hb Hr) as [Ha|Hle]; [now left|right].
    unfold num_next, num_emits in *; cbn [filter]; auto.
Qed.

(** All emissions lie in the grid, so their total is bounded. *)
Lemma num_emits_sum ev secs :
  NoDup secs -> (forall c, In (Emit c) ev -> In c secs) ->
  num_emits ev = list_sum (map (fun c => emissions c ev) secs).
Proof.
  intros Hnd; induction ev as [|[x|x] ev IH]; intros Hin.
  - unfold emissions, num_emits; cbn; clear; induction secs; cbn; auto.
  - assert (Hx : In x secs) by (apply Hin; now left).
    unfold num_emits in *; cbn [filter length].
    rewrite IH by (intros c Hc; apply Hin; now right).
    clear IH Hin; revert Hx; induction Hnd as [|y l Hy Hl IHl]; intros Hx; [destruct Hx|].
    cbn [map list_sum fold_right]; rewrite emissions_emit.
    destruct (coord_eqb_spec x y) as [->|Hne].
    + assert (E : map (fun c => emissions c (Emit y :: ev)) l = map (fun c => emissions c ev) l).
      { apply map_ext_in; intros c Hc; rewrite emissions_emit.
        destruct (coord_eqb_spec y c) as [->|]; [tauto|auto]. }
      rewrite E; lia.
    + destruct Hx as [->|Hx]; [congruence|]. specialize (IHl Hx). unfold list_sum in *; lia.
  - unfold num_emits in *; cbn [filter]. rewrite IH by (intros c Hc; apply Hin; now right).
    f_equal.
Qed.

Lemma list_sum_bound {X} (g : X -> nat) N l : (forall x, g x <= N) -> list_sum (map g l) <= length l * N.
Proof. intros H; induction l as [|x l IH]; cbn; auto; specialize (H x); unfold list_sum in *; lia. Qed.

Lemma list_sum_reach {X} (g : X -> nat) N l : (forall x, g x <= N) -> length l * N <= list_sum (map g l) ->
  forall x, In x l -> g x = N.
Proof.
  intros H; induction l as [|x l IH]; cbn; [tauto|].
  pose proof (list_sum_bound g N l H) as Hb; pose proof (H x) as Hx. unfold list_sum in *.
  intros Hs y [<-|Hy]; [lia|]. apply IH; auto; lia.
Qed.

Lemma q_run_exhausts dims N bs ops q' ev :
  1 <= N -> match bs with Some b => 1 <= b | None => Forall (le 1) dims end ->
  q_run (queue_new dims N bs) ops = (q', ev) ->
  length (ndindex dims) * N <= num_next ops ->
  q_active q' = [].
Proof.
  intros HN Hbs Hr Hlen.
  assert (Hb : 1 <= q_batch (queue_new dims N bs)).
  { unfold queue_new; cbn [q_batch]; destruct dims as [|n t]; [lia|destruct bs as [b|]; [auto|]].
    rewrite length_ndindex. clear -Hbs; induction Hbs; cbn in *; nia. }
  pose proof (qinv_new dims N bs HN) as H0.
  destruct (qinv_run _ _ _ _ _ _ _ H0 Hr) as [Hinv _]; cbn in Hinv.
  destruct (q_run_progress _ _ _ _ _ _ _ H0 Hb Hr) as [Ha|Hle]; auto.
  rewrite (num_emits_sum ev (ndindex dims)) in Hle;
    [|apply NoDup_ndindex | intros c Hc; apply ndindex_spec, (qi_in _ _ _ _ Hinv _ Hc)].
  destruct (q_active q') as [|c l] eqn:Hact; auto; exfalso.
  assert (Hin : In c (q_active q')) by (rewrite Hact; now left).
  pose proof (qi_active _ _ _ _ Hinv c Hin) as [Hlt _].
  pose proof (list_sum_reach _ N (ndindex dims) (qi_le _ _ _ _ Hinv) ltac:(lia) c
                (proj2 (ndindex_spec _ _) (qi_grid _ _ _ _ Hinv c Hin))); lia.
Qed.
