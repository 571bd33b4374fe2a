(** Theorems about sampling channels (C99). *)
From Coq Require Import List Reals ZArith Lia Lra Bool Arith.
From Verif Require Import Base BaseLemmas Smp_Model Smp_Spec Smp_Proofs.
Import ListNotations.
Open Scope R_scope.

Section Channels.
  Context {B : Type}.
  Variable scale : link -> R -> R.
  Variable pb : link -> R -> B -> B.

  (** A sample of the k-th realization notifies, each once, exactly the hooks registered when that realization was created and admitting both
      devices, whatever happens before or afterwards; a failing request notifies nobody and changes nothing. *)
Theorem C99_notified : forall g w0 pre (o : op B) post request w' out, new_channel g = Ok w0 -> creates_realization o = true ->
    let w := run scale pb w0 (pre ++ o :: post) in let k := count creates_realization pre in
    forall t r, (exists ts args kw, request = Sample k t r ts args kw) \/ (exists s args kw, request = Reciprocal k s t r args kw) ->
    step scale pb w request = (w', out) ->
    (forall e, out = Raise e -> w' = w) /\
    (forall v, out = Ok v -> exists l new, v = ASample l /\ samples w' = samples w ++ [(l, gain_after g pre)] /\ calls w' = calls w ++ new /\
       notified pre (identifier t) (identifier r) (length (samples w)) new).
  Proof.
    intros g w0 pre o post request w' out H Ho w k t r Hr Hs.
    assert (K : exists lk, (forall l, lk = Ok l -> device_id (tx l) = identifier t /\ device_id (rx l) = identifier r) /\ (take w k lk = (w', out) \/ (w' = w /\ out = Raise IndexError))).
    { destruct Hr as [[ts [args [kw ->]]] | [s [args [kw ->]]]]; cbn [step] in Hs.
      - exists (sampled_link t r ts args kw). split; [ intros l; apply link_ids | left; exact Hs ].
      - destruct (nth_error (samples w) s) as [[l0 g0] | ].
        + exists (reciprocal_link l0 t r args kw). split; [ intros l; apply reciprocal_ids | left; exact Hs ].
        + exists (Raise IndexError). split; [ discriminate | right; injection Hs as <- <-; split; reflexivity ]. }
    destruct K as [lk [Hid [K | [-> ->]]]]; [ | split; [ reflexivity | discriminate ] ].
    apply take_cases in K as [[e [-> ->]] | [l [hs [g' [El [En [-> [S C]]]]]]]]; [ split; [ reflexivity | discriminate ] | ].
    split; [ discriminate | ]. intros v Hv. injection Hv as <-. assert (N := realization_of scale pb g w0 pre o post H Ho). fold w in N. fold k in N. rewrite N in En. injection En as <- <-.
    exists l, (notify (hooks (run scale pb w0 pre)) l (length (samples w))). split; [ reflexivity | ]. split; [ exact S | ]. split; [ exact C | ].
    destruct (Hid l El) as [<- <-]. apply (notify_spec scale pb g). exact H.
  Qed.

  (** So hooks registered after a realization was created are not notified by its samples, and removed ones still are *)
Theorem C99_late_hooks_refuted : forall g w0, new_channel g = Ok w0 -> forall d e : device,
    calls (run scale pb w0 [Realize true; AddHook None None; Sample 0 (ADevice d) (ADevice e) None [] (None, None)]) = [] /\
    calls (run scale pb w0 [AddHook None None; Realize true; RemoveHook 0; Sample 0 (ADevice d) (ADevice e) None [] (None, None)]) = [(0%nat, 0%nat)].
  Proof. intros g w0 H d e. unfold new_channel in H. destruct (Rlt_dec g 0); [ discriminate | ]. injection H as <-. split; reflexivity. Qed.

  (** The last cached realization is remembered; there is none before *)
Theorem C99_realization : forall g w0 pre (o : op B) post, new_channel g = Ok w0 ->
    let caches o := match o with Realize true | Propagate _ _ _ _ => true | _ => false end in
    (forall x, In x post -> caches x = false) ->
    (caches o = true -> step scale pb (run scale pb w0 (pre ++ o :: post)) Realization = (run scale pb w0 (pre ++ o :: post), Ok (ARealization (count creates_realization pre)))) /\
    step scale pb (run scale pb w0 post) Realization = (run scale pb w0 post, Raise AttributeError).
  Proof.
    intros g w0 pre o post H caches Hp.
    assert (F : forall w o, caches o = false -> cached (fst (step scale pb w o)) = cached w). { intros w x Hx. destruct (step_frame scale pb w x) as [_ [_ [_ [_ ->]]]]. destruct x as [ | | | [ | ] | | | | ]; try reflexivity; discriminate. }
    assert (G : forall w, cached (run scale pb w post) = cached w). { clear H. induction post as [ | x post IH]; intros w; [ reflexivity | ]. unfold run. cbn [fold_left]. change (fold_left _ post ?x) with (run scale pb x post). rewrite IH by (intros y Hy; apply Hp; right; exact Hy). apply F. apply Hp. left. reflexivity. }
    split.
    - intros Ho. cbn [step]. rewrite run_app. unfold run at 1 3. cbn [fold_left]. change (fold_left _ post ?x) with (run scale pb x post). rewrite G. destruct (step_frame scale pb (run scale pb w0 pre) o) as [_ [_ [_ [_ E]]]].
      rewrite E. destruct (inv_run scale pb g w0 pre H) as [_ [_ [_ [_ [_ N]]]]]. rewrite N. destruct o as [ | | | [ | ] | | | | ]; try discriminate; reflexivity.
    - cbn [step]. rewrite G. unfold new_channel in H. destruct (Rlt_dec g 0); [ discriminate | ]. injection H as <-. reflexivity.
  Qed.

  (** Gains are never negative, and a negative one is refused without effect *)
Theorem C99_gain : forall g, (g < 0 -> new_channel g = Raise ValueError) /\
    (0 <= g -> exists w0, new_channel g = Ok w0 /\ forall ops : list (op B), gain (run scale pb w0 ops) = gain_after g ops /\ 0 <= gain (run scale pb w0 ops) /\
       forall x, x < 0 -> step scale pb (run scale pb w0 ops) (SetGain x) = (run scale pb w0 ops, Raise ValueError)).
  Proof.
    intros g. unfold new_channel. split; [ intros H; destruct (Rlt_dec g 0); [ reflexivity | contradiction ] | ]. intros H. destruct (Rlt_dec g 0) as [K | K]; [ lra | ]. eexists. split; [ reflexivity | ]. intros ops.
    assert (E : new_channel g = Ok (Channel [] g 0 [] None [] [])) by (unfold new_channel; destruct (Rlt_dec g 0); [ lra | reflexivity ]). destruct (inv_run scale pb g _ ops E) as [_ [_ [_ [_ [G _]]]]]. split; [ exact G | ]. split.
    - rewrite G. clear - H. revert g H. induction ops as [ | o ops IH]; intros g H; [ exact H | ]. cbn [gain_after]. destruct o; try (apply IH; exact H). apply IH. destruct (Rlt_dec g0 0); lra.
    - intros x Hx. cbn [step]. destruct (Rlt_dec x 0); [ reflexivity | contradiction ].
  Qed.

  (** ** Links *)
  (** A link between devices connects their states at the given time, zero by default; carrier and bandwidth are the positional arguments,
      by default those of the transmitter. *)
Theorem C99_devices : forall d e ts args kw, (forall i, (i < 2)%nat -> nth_error args i <> Some None) ->
    exists l, sampled_link (ADevice d) (ADevice e) ts args kw = Ok l /\
      (forall t, ts = Some t -> time l = t) /\ (ts = None -> time l = 0) /\ tx l = state_of d (time l) /\ rx l = state_of e (time l) /\
      (forall c, nth_error args 0 = Some (Some c) -> carrier l = c) /\ (length args = 0%nat -> carrier l = dev_carrier d) /\
      (forall b, nth_error args 1 = Some (Some b) -> bandwidth l = b) /\ ((length args < 2)%nat -> bandwidth l = dev_rate d).
  Proof.
    intros d e ts args kw H. assert (H0 := H 0%nat ltac:(lia)). assert (H1 := H 1%nat ltac:(lia)). unfold sampled_link, float_arg.
    destruct args as [ | [c | ] [ | [b | ] args]]; cbn [nth_error bind length] in *; try congruence; eexists; (split; [ reflexivity | ]); cbn [time tx rx carrier bandwidth or_else st_carrier st_rate state_of];
      repeat split; try (intros x ->; reflexivity); try (intros ->; reflexivity); try (intros x [=]; congruence); try discriminate; try (intros; lia).
  Qed.
  (** A link between states connects them as they are *)
Theorem C99_states : forall d e ts args kw, (forall i, (i < 2)%nat -> nth_error args i <> Some None) ->
    exists l, sampled_link (AState d) (AState e) ts args kw = Ok l /\
      (forall t, ts = Some t -> time l = t) /\ (ts = None -> time l = 0) /\ tx l = d /\ rx l = e /\
      (forall c, nth_error args 0 = Some (Some c) -> carrier l = c) /\ (length args = 0%nat -> carrier l = st_carrier d) /\
      (forall b, nth_error args 1 = Some (Some b) -> bandwidth l = b) /\ ((length args < 2)%nat -> bandwidth l = st_rate d).
  Proof.
    intros d e ts args kw H. assert (H0 := H 0%nat ltac:(lia)). assert (H1 := H 1%nat ltac:(lia)). unfold sampled_link, float_arg.
    destruct args as [ | [c | ] [ | [b | ] args]]; cbn [nth_error bind length] in *; try congruence; eexists; (split; [ reflexivity | ]); cbn [time tx rx carrier bandwidth or_else];
      repeat split; try (intros x ->; reflexivity); try (intros ->; reflexivity); try (intros x [=]; congruence); try discriminate; try (intros; lia).
  Qed.
  (** Devices and states do not mix *)
Theorem C99_mixed : forall t r ts args kw kw' s, ~ both_devices t r -> ~ both_states t r -> (forall i, nth_error args i <> Some None) ->
    sampled_link t r ts args kw = Raise ValueError /\ reciprocal_link s t r args kw' = Raise ValueError.
  Proof.
    intros t r ts args kw kw' s H1 H2 H3. assert (A := H3 0%nat). assert (A1 := H3 1%nat). split.
    - unfold sampled_link, float_arg. destruct args as [ | [c | ] [ | [b | ] args]]; cbn [nth_error bind] in *; try congruence; destruct t, r; try reflexivity; exfalso; first [ apply H1; do 2 eexists; split; reflexivity | apply H2; do 2 eexists; split; reflexivity ].
    - destruct t, r; try reflexivity; exfalso; first [ apply H1; do 2 eexists; split; reflexivity | apply H2; do 2 eexists; split; reflexivity ].
  Qed.
  (** A carrier frequency given by name is ignored, and None given by position fails *)
Theorem C99_keywords_refuted : forall d e ts c, c <> dev_carrier d -> exists l, sampled_link (ADevice d) (ADevice e) ts [] (Some c, None) = Ok l /\ carrier l <> c /\
    sampled_link (ADevice d) (ADevice e) ts [None] (None, None) = Raise TypeError.
  Proof. intros d e ts c H. eexists. split; [ reflexivity | ]. cbn. split; [ congruence | reflexivity ]. Qed.
  (** States of a later time are sampled at time zero unless told otherwise *)
Theorem C99_state_time_refuted : forall d e t, t <> 0 -> exists l, sampled_link (AState (state_of d t)) (AState (state_of e t)) None [] (None, None) = Ok l /\ st_time (tx l) = t /\ time l <> t.
  Proof. intros d e t H. eexists. split; [ reflexivity | ]. cbn. split; [ reflexivity | congruence ]. Qed.
  (** Reciprocal samples of states are taken at the time of the sample; doing it twice leads back if both use the same carrier and bandwidth *)
Theorem C99_reciprocal_states : forall s a b kw, exists l, reciprocal_link s (AState b) (AState a) [] kw = Ok l /\ tx l = b /\ rx l = a /\ time l = time s /\ carrier l = st_carrier b /\ bandwidth l = st_rate b /\
    (sampled_link (AState a) (AState b) (Some (time s)) [] (None, None) = Ok s -> reciprocal_link l (AState a) (AState b) [] kw = Ok s).
  Proof.
    intros s a b kw. eexists. split; [ reflexivity | ]. cbn [tx rx time carrier bandwidth or_else]. repeat split. intros H. exact H.
  Qed.
  (** Reciprocal samples of devices are taken at time zero unless told otherwise, whatever the time of the sample *)
Theorem C99_reciprocal_time_refuted : forall d e t s kw, t <> 0 -> sampled_link (ADevice d) (ADevice e) (Some t) [] (None, None) = Ok s ->
    exists l, reciprocal_link s (ADevice e) (ADevice d) [] kw = Ok l /\ time l <> time s /\ st_time (tx l) <> st_time (rx s).
  Proof. intros d e t s kw H E. cbn in E. injection E as <-. eexists. split; [ reflexivity | ]. cbn. split; congruence. Qed.
  (** ... while with time stamp, carrier and bandwidth everything is as requested *)
Theorem C99_reciprocal_devices : forall d e s kw t c b, reciprocal_link s (ADevice d) (ADevice e) [Some t; Some c; Some b] kw = Ok (Link (state_of d t) (state_of e t) c b t).
  Proof. reflexivity. Qed.

  (** ** Propagation *)
  (** Without energy an empty signal is received, labelled as transmitted and whatever its streams; otherwise streams are checked, and the
      received signal is labelled by carrier and bandwidth of the link. *)
Theorem C99_propagated : forall l g s,
    (scale l g <= 0 -> exists p, propagate scale pb l g s = Ok p /\ blocks p = [] /\ streams p = num_rx (rx l) /\ rate p = rate s /\ carrier_frequency p = carrier_frequency s /\ delay p = delay s /\ noise_power p = noise_power s) /\
    (0 < scale l g -> streams s <> num_tx (tx l) -> propagate scale pb l g s = Raise ValueError) /\
    (0 < scale l g -> streams s = num_tx (tx l) -> exists p, propagate scale pb l g s = Ok p /\ length (blocks p) = length (blocks s) /\
       (forall i b, nth_error (blocks s) i = Some b -> nth_error (blocks p) i = Some (pb l g b)) /\
       streams p = num_rx (rx l) /\ rate p = bandwidth l /\ carrier_frequency p = carrier l /\ delay p = delay s /\ noise_power p = noise_power s).
  Proof.
    intros l g s. unfold propagate. split; [ | split ].
    - intros H. destruct (Rle_dec (scale l g) 0); [ | contradiction ]. eexists. split; [ reflexivity | ]. repeat split.
    - intros H N. destruct (Rle_dec (scale l g) 0); [ lra | ]. destruct (Nat.eqb_spec (streams s) (num_tx (tx l))); [ contradiction | reflexivity ].
    - intros H N. destruct (Rle_dec (scale l g) 0); [ lra | ]. destruct (Nat.eqb_spec (streams s) (num_tx (tx l))); [ | contradiction ]. cbn [negb]. eexists. split; [ reflexivity | ]. cbn [blocks streams rate carrier_frequency delay noise_power]. rewrite map_length. repeat split.
      intros i b Hb. rewrite nth_error_map', Hb. reflexivity.
  Qed.
  (** A signal sampled at another rate than its transmitter is relabelled rather than resampled *)
Theorem C99_relabelled_refuted : forall (d e : dstate) g s l, sampled_link (AState d) (AState e) None [] (None, None) = Ok l -> 0 < scale l g -> streams s = num_tx d -> rate s <> st_rate d ->
    exists p, propagate scale pb l g s = Ok p /\ length (blocks p) = length (blocks s) /\ rate p <> rate s.
  Proof.
    intros d e g s l H P N K. cbn in H. assert (El : l = Link d e (st_carrier d) (st_rate d) 0) by congruence. clear H. destruct (C99_propagated l g s) as [_ [_ A]]. destruct A as [p [E [L [_ [_ [Rp _]]]]]]; [ exact P | rewrite El; exact N | ].
    exists p. split; [ exact E | ]. split; [ exact L | ]. rewrite Rp, El. cbn. congruence.
  Qed.
  (** Propagating over a channel creates and remembers a realization with the current hooks and gain, notifies the hooks even if the signal is
      refused afterwards, and labels what is received as it was transmitted. *)
Theorem C99_propagate : forall g w0 (ops : list (op B)) s d e ts, new_channel g = Ok w0 -> let w := run scale pb w0 ops in
    exists w' new l, fst (step scale pb w (Propagate s (ADevice d) (ADevice e) ts)) = w' /\ snd (step scale pb w' Realization) = Ok (ARealization (count creates_realization ops)) /\
      samples w' = samples w ++ [(l, gain_after g ops)] /\ calls w' = calls w ++ new /\ notified ops (ident d) (ident e) (length (samples w)) new /\
      tx l = state_of d (time l) /\ rx l = state_of e (time l) /\ (forall t, ts = Some t -> time l = t) /\
      (0 < scale l (gain_after g ops) -> streams s <> dev_tx d -> snd (step scale pb w (Propagate s (ADevice d) (ADevice e) ts)) = Raise ValueError) /\
      (scale l (gain_after g ops) <= 0 \/ streams s = dev_tx d -> exists p, snd (step scale pb w (Propagate s (ADevice d) (ADevice e) ts)) = Ok (ASignal p) /\
         streams p = dev_rx e /\ rate p = rate s /\ carrier_frequency p = carrier_frequency s /\ delay p = delay s /\ noise_power p = noise_power s).
  Proof.
    intros g w0 ops s d e ts H w. destruct (inv_run scale pb g w0 ops H) as [_ [_ [_ [_ [G N]]]]]. fold w in G, N.
    set (l := Link (state_of d (or_else ts 0)) (state_of e (or_else ts 0)) (carrier_frequency s) (rate s) (or_else ts 0)).
    assert (E : step scale pb w (Propagate s (ADevice d) (ADevice e) ts) =
      (Channel (hooks w) (gain w) (created w) (realizations w ++ [(hooks w, gain w)]) (Some (length (realizations w))) (samples w ++ [(l, gain w)]) (calls w ++ notify (hooks w) l (length (samples w))),
       do p <- propagate scale pb l (gain w) s; Ok (ASignal p))).
    { cbn [step]. unfold realize, take. cbn [realizations]. rewrite app_length. cbn [length]. replace (length (realizations w) + 1 - 1)%nat with (length (realizations w)) by lia. rewrite nth_error_app2, Nat.sub_diag by lia. reflexivity. }
    rewrite E. eexists _, (notify (hooks w) l (length (samples w))), l. split; [ reflexivity | ]. cbn [fst snd step cached samples calls]. rewrite <- N, <- G.
    split; [ reflexivity | ]. split; [ reflexivity | ]. split; [ reflexivity | ]. split; [ apply (notify_spec scale pb g w0 ops l _ H) | ]. split; [ reflexivity | ]. split; [ reflexivity | ]. split; [ intros t ->; reflexivity | ].
    destruct (C99_propagated l (gain w) s) as [A1 [A2 A3]]. split.
    - intros P M. rewrite A2; [ reflexivity | exact P | exact M ].
    - intros M. destruct (Rle_dec (scale l (gain w)) 0) as [P | P].
      + destruct (A1 P) as [p [Ep [_ [S [R1 [C1 [D1 N1]]]]]]]. exists p. rewrite Ep. repeat split; assumption.
      + destruct M as [M | M]; [ contradiction | ]. destruct (A3 ltac:(lra) M) as [p [Ep [_ [_ [S [R1 [C1 [D1 N1]]]]]]]]. exists p. rewrite Ep. repeat split; try assumption.
  Qed.
End Channels.
Print Assumptions C99_notified.
Print Assumptions C99_late_hooks_refuted.
Print Assumptions C99_realization.
Print Assumptions C99_gain.
Print Assumptions C99_devices.
Print Assumptions C99_states.
Print Assumptions C99_mixed.
Print Assumptions C99_keywords_refuted.
Print Assumptions C99_state_time_refuted.
Print Assumptions C99_reciprocal_states.
Print Assumptions C99_reciprocal_time_refuted.
Print Assumptions C99_reciprocal_devices.
Print Assumptions C99_propagated.
Print Assumptions C99_relabelled_refuted.
Print Assumptions C99_propagate.

(** Two hooks, one of them for another receiver, a realization, and a sample *)
Example C99_met : exists w0 : channel, new_channel 1 = Ok w0 /\
  let d := Device 7 1 2 1 1 in let e := Device 8 1 2 1 1 in
  let w := run (B := nat) (fun _ _ => 1) (fun _ _ b => b) w0 [AddHook (Some 7%nat) None; AddHook None (Some 9%nat); SetGain 2; Realize false; SetGain 3] in
  calls w = [] /\
  exists w' l, step (B := nat) (fun _ _ => 1) (fun _ _ b => b) w (Sample 0 (ADevice d) (ADevice e) (Some 4) [] (None, None)) = (w', Ok (ASample l)) /\ calls w' = [(0%nat, 0%nat)] /\ time l = 4.
Proof.
  unfold new_channel. destruct (Rlt_dec 1 0); [ lra | ]. eexists. split; [ reflexivity | ]. cbv zeta. unfold run. cbn [fold_left step fst]. destruct (Rlt_dec 2 0); [ lra | ]. cbn [fst realize realizations hooks gain samples cached created calls app length]. destruct (Rlt_dec 3 0); [ lra | ].
  split; [ reflexivity | ]. eexists _, _. split; [ reflexivity | ]. split; reflexivity.
Qed.
