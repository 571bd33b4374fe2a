(** Proofs about the modes of scenarios. *)
From Coq Require Import String List Arith Bool Lia.
From Verif Require Import Base BaseLemmas Scn_Model Scn_Spec.
Import ListNotations.
Open Scope nat_scope.

Definition holds (k : disk) (p : nat * campaign_name) : Prop := exists l, stored k (fst p) (snd p) = Some l.
Definition inv (w : world) : Prop :=
  let '(s, k) := w in
  match s_mode s with
  | DEFAULT => s_writing s = None /\ s_reading s = None
  | RECORD => (exists p, s_writing s = Some p /\ holds k p) /\ s_reading s = None
  | REPLAY => s_writing s = None /\ exists p, s_reading s = Some p /\ holds k p
  end.

Lemma mode_eqb_spec : forall a b, reflect (a = b) (mode_eqb a b).
Proof. intros [] []; constructor; congruence. Qed.
Lemma set_campaign_keeps : forall s c, let s' := fst (set_campaign s c) in
  s_mode s' = s_mode s /\ s_devices s' = s_devices s /\ s_writing s' = s_writing s /\ s_reading s' = s_reading s /\ s_replay_file s' = s_replay_file s.
Proof.
  intros s c. unfold set_campaign. destruct (campaign_dec c (Some "state"%string)); [repeat split|]. destruct (campaign_dec c (s_campaign s)); [repeat split|].
  destruct (mode_eqb (s_mode s) REPLAY); repeat split.
Qed.
Lemma stored_opened : forall k f c, exists l, stored (open_for_writing k f c) f c = Some l /\ l = match stored k f c with Some l => l | None => [] end.
Proof.
  intros k f c. unfold stored, open_for_writing, set_file. rewrite Nat.eqb_refl. destruct (k f) as [x|].
  - destruct (x c) as [l|] eqn:E; [rewrite E; eauto|]. unfold set_drops. destruct (campaign_dec c c); [eauto|contradiction].
  - destruct c as [n|]; cbn; [|eauto]. unfold set_drops. destruct (campaign_dec (Some n) (Some n)); [eauto|contradiction].
Qed.
Lemma stored_opened_other : forall k f c f' c', (f', c') <> (f, c) -> stored (open_for_writing k f c) f' c' = stored k f' c' \/ (k f = None /\ f' = f /\ c' = None).
Proof.
  intros k f c f' c' D. unfold stored, open_for_writing, set_file. destruct (Nat.eqb_spec f' f) as [->|N]; [|left; reflexivity]. destruct (k f) as [x|] eqn:E.
  - left. destruct (x c) eqn:F; [reflexivity|]. unfold set_drops. destruct (campaign_dec c' c); [congruence|reflexivity].
  - destruct c' as [n'|]; [|right; auto]. left. destruct c as [n|]; cbn; [|reflexivity]. unfold set_drops. destruct (campaign_dec (Some n') (Some n)); [congruence|reflexivity].
Qed.
Lemma stored_removed : forall k f f' c, stored (set_file k f None) f' c = if f' =? f then None else stored k f' c.
Proof. intros k f f' c. unfold stored, set_file. destruct (f' =? f); reflexivity. Qed.
Lemma stored_set : forall k f x c l f' c', k f = Some x -> stored (set_file k f (Some (set_drops x c l))) f' c' =
  if f' =? f then (if campaign_dec c' c then Some l else stored k f' c') else stored k f' c'.
Proof.
  intros k f x c l f' c' E. unfold stored, set_file, set_drops. destruct (Nat.eqb_spec f' f) as [->|N]; [|reflexivity]. rewrite E. destruct (campaign_dec c' c); reflexivity.
Qed.

Lemma stop_clears : forall s, s_mode (stop s) = DEFAULT /\ s_writing (stop s) = None /\ s_reading (stop s) = None /\ s_devices (stop s) = s_devices s /\
  s_campaign (stop s) = s_campaign s /\ s_replay_file (stop s) = s_replay_file s.
Proof. intros [m d w r n c f]. unfold stop. cbn. destruct w; cbn; destruct r; cbn; repeat split. Qed.

Lemma apply_inv : forall v w o, inv w -> inv (fst (apply v w o)).
Proof.
  intros v [s k] o I. destruct o as [d|c|f c ow|f c n| |st d]; cbn [apply fst snd].
  - unfold add_device. destruct (existsb _ _); [exact I|]. destruct (mode_eqb_spec (s_mode s) DEFAULT) as [E|E]; cbn [negb]; [|exact I]. cbn. exact I.
  - destruct (set_campaign s c) as [s' r] eqn:E. pose proof (set_campaign_keeps s c) as K. rewrite E in K. cbn in K. destruct K as (K1 & _ & K3 & K4 & _).
    cbn. unfold inv in I. rewrite K1, K3, K4. exact I.
  - unfold record. destruct (mode_eqb_spec (s_mode s) DEFAULT) as [E|E]; cbn [negb]; [|exact I].
    set (k1 := if ow then _ else _). set (s1 := mkScn _ _ _ _ _ _ _). destruct (set_campaign s1 c) as [s' r] eqn:F. pose proof (set_campaign_keeps s1 c) as K. rewrite F in K. cbn in K.
    destruct K as (K1 & _ & K3 & K4 & _). cbn. rewrite K1, K3, K4. unfold inv in I. rewrite E in I. split; [|apply I]. exists (f, c). split; [reflexivity|].
    destruct (stored_opened k1 f c) as (l & L & _). exists l. exact L.
  - unfold replay. destruct (match f with Some g => Some g | None => s_replay_file s end) as [g|]; [|exact I]. destruct (drops_in k g c) as [l|e] eqn:E; [|exact I].
    destruct (length l <=? n); [exact I|]. cbn. pose proof (stop_clears s) as (_ & K2 & _). split; [exact K2|]. exists (g, c). split; [reflexivity|].
    exists l. unfold drops_in in E. unfold stored. cbn [fst snd]. destruct (k g) as [x|]; [|discriminate]. destruct (x c); [congruence|discriminate].
  - pose proof (stop_clears s) as (K1 & K2 & K3 & _). unfold inv. rewrite K1, K2, K3. split; reflexivity.
  - unfold do_drop. destruct st; [destruct v; exact I|]. destruct (mode_eqb_spec (s_mode s) REPLAY) as [E|E].
    + destruct (s_reading s) as [[f c]|] eqn:R; [|exact I]. destruct (drops_in k f c) as [l|e]; [|exact I]. destruct (nth_error l (s_counter s)) as [d'|]; [|exact I].
      destruct (replayed (s_devices s) d') as [ns e]. cbn. unfold inv in I. rewrite R in I. exact I.
    + destruct v; [|exact I]. destruct (mode_eqb_spec (s_mode s) RECORD) as [F|F]; [|exact I].
      destruct (s_writing s) as [[f c]|] eqn:W; [|exact I]. destruct (k f) as [x|] eqn:X; [|exact I]. cbn. unfold inv in I. rewrite F in *. rewrite W in I.
      destruct I as [(p & Ep & l & H) Rd]. injection Ep as <-. cbn [fst snd] in H. split; [|exact Rd]. exists (f, c). split; [reflexivity|].
      eexists. cbn [fst snd]. rewrite (stored_set k f x c _ f c X), Nat.eqb_refl. destruct (campaign_dec c c); [reflexivity|contradiction].
Qed.
Lemma run_inv : forall v ops w, inv w -> inv (run v w ops).
Proof. intros v ops. unfold run. induction ops as [|o r IH]; intros w I; [exact I|]. cbn [fold_left]. apply IH. apply apply_inv. exact I. Qed.
Lemma reachable_inv : forall v w, reachable v w -> inv w.
Proof. intros v w (k & ops & ->). apply run_inv. split; reflexivity. Qed.

(** One call while recording. *)
Lemma recording_step : forall s k f c l o, s_mode s = RECORD -> s_writing s = Some (f, c) -> s_reading s = None -> stored k f c = Some l -> keeps_recording o = true ->
  let '(s', k') := fst (apply Generating (s, k) o) in
  s_mode s' = RECORD /\ s_writing s' = Some (f, c) /\ s_reading s' = None /\ stored k' f c = Some (l ++ plain_drops [o]) /\
  (forall f' c', (f', c') <> (f, c) -> stored k' f' c' = stored k f' c') /\ s_devices s' = s_devices s.
Proof.
  intros s k f c l o M W Rd S K. destruct o as [d|c0|f0 c0 ow|f0 c0 n| |st d]; cbn [apply fst snd plain_drops flat_map app]; try discriminate K.
  - unfold add_device. rewrite M. destruct (existsb _ _); cbn; rewrite app_nil_r; auto 7.
  - destruct (set_campaign s c0) as [s' r] eqn:E. pose proof (set_campaign_keeps s c0) as Q. rewrite E in Q. cbn in Q. destruct Q as (Q1 & Q2 & Q3 & Q4 & _).
    cbn. rewrite Q1, Q2, Q3, Q4, app_nil_r. auto 7.
  - unfold record. rewrite M. cbn. rewrite app_nil_r. auto 7.
  - unfold do_drop. destruct st; cbn [fst].
    + rewrite app_nil_r. auto 7.
    + rewrite M. cbn [mode_eqb]. rewrite W. unfold stored in S. destruct (k f) as [x|] eqn:X; [|discriminate]. cbn [fst s_mode s_writing s_reading s_devices].
      rewrite (stored_set k f x c _ f c X), Nat.eqb_refl. destruct (campaign_dec c c); [|contradiction]. rewrite S. repeat split; try assumption.
      intros f' c' D. rewrite (stored_set k f x c _ f' c' X). destruct (Nat.eqb_spec f' f) as [->|N]; [|reflexivity]. destruct (campaign_dec c' c); [congruence|reflexivity].
Qed.
Lemma recording_run : forall ops s k f c l, s_mode s = RECORD -> s_writing s = Some (f, c) -> s_reading s = None -> stored k f c = Some l -> forallb keeps_recording ops = true ->
  let '(s', k') := run Generating (s, k) ops in
  s_mode s' = RECORD /\ s_writing s' = Some (f, c) /\ stored k' f c = Some (l ++ plain_drops ops) /\
  (forall f' c', (f', c') <> (f, c) -> stored k' f' c' = stored k f' c') /\ s_devices s' = s_devices s.
Proof.
  induction ops as [|o r IH]; intros s k f c l M W Rd S K.
  - cbn. rewrite app_nil_r. auto 6.
  - cbn [forallb] in K. apply andb_true_iff in K. destruct K as [K1 K2]. pose proof (recording_step s k f c l o M W Rd S K1) as Q.
    unfold run. cbn [fold_left]. destruct (fst (apply Generating (s, k) o)) as [s1 k1]. destruct Q as (Q1 & Q2 & Q3 & Q4 & Q5 & Q6).
    specialize (IH s1 k1 f c _ Q1 Q2 Q3 Q4 K2). fold (run Generating (s1, k1) r). destruct (run Generating (s1, k1) r) as [s2 k2].
    destruct IH as (I1 & I2 & I3 & I4 & I5). repeat split; try assumption.
    + rewrite I3. rewrite <- app_assoc. f_equal. f_equal. unfold plain_drops. cbn [flat_map]. rewrite app_nil_r. reflexivity.
    + intros f' c' D. rewrite I4, Q5 by exact D. reflexivity.
    + rewrite I5. exact Q6.
Qed.
Lemma counter_step : forall s k f c l o, s_mode s = RECORD -> s_writing s = Some (f, c) -> stored k f c = Some l -> keeps_recording o = true ->
  s_counter (fst (fst (apply Generating (s, k) o))) =
  match o with
  | SetCampaign c' => if campaign_dec c' (Some "state"%string) then s_counter s else if campaign_dec c' (s_campaign s) then s_counter s else 0
  | _ => s_counter s + length (plain_drops [o])
  end.
Proof.
  intros s k f c l o M W S K. destruct o as [d|c0|f0 c0 ow|f0 c0 n| |st d]; cbn [apply fst snd plain_drops flat_map app]; try discriminate K.
  - unfold add_device. rewrite M. destruct (existsb _ _); cbn; lia.
  - unfold set_campaign. rewrite M. destruct (campaign_dec c0 (Some "state"%string)); [reflexivity|]. destruct (campaign_dec c0 (s_campaign s)); reflexivity.
  - unfold record. rewrite M. cbn. lia.
  - unfold do_drop. destruct st; cbn [fst]; [cbn; lia|]. rewrite M. cbn [mode_eqb]. rewrite W. unfold stored in S. destruct (k f) as [x|]; [|discriminate]. cbn. lia.
Qed.

(** ** Replays *)
Lemma drops_in_stored : forall k f c l, drops_in k f c = Ok l <-> stored k f c = Some l.
Proof.
  intros k f c l. unfold drops_in, stored. destruct (k f) as [x|]; [|split; discriminate]. destruct (x c); split; congruence.
Qed.
Lemma replay_step : forall v s k f c l o, s_mode s = REPLAY -> s_reading s = Some (f, c) -> stored k f c = Some l -> quiet o = true ->
  let '(s', k') := fst (apply v (s, k) o) in
  s_mode s' = REPLAY /\ s_reading s' = Some (f, c) /\ k' = k /\ s_devices s' = s_devices s /\ s_campaign s' = s_campaign s /\
  s_counter s' = Nat.min (s_counter s + length (plain_drops [o])) (Nat.max (s_counter s) (length l)).
Proof.
  intros v s k f c l o M R S K. destruct o as [d|c0|f0 c0 ow|f0 c0 n| |st d]; cbn [apply fst snd plain_drops flat_map app length]; try discriminate K.
  - unfold add_device. rewrite M. destruct (existsb _ _); cbn; repeat split; try assumption; lia.
  - unfold record. rewrite M. cbn. repeat split; try assumption; lia.
  - unfold do_drop. destruct st; cbn [fst length].
    + destruct v; cbn; repeat split; try assumption; lia.
    + rewrite M. cbn [mode_eqb]. rewrite R. rewrite (proj2 (drops_in_stored k f c l) S). destruct (nth_error l (s_counter s)) as [d'|] eqn:N.
      * destruct (replayed (s_devices s) d') as [ns e]. cbn. apply nth_error_Some_lt in N || (assert (s_counter s < length l) by (apply nth_error_Some; congruence)).
        repeat split; try assumption. lia.
      * apply nth_error_None in N. cbn. repeat split; try assumption. lia.
Qed.
Lemma replay_run : forall v ops s k f c l, s_mode s = REPLAY -> s_reading s = Some (f, c) -> stored k f c = Some l -> s_counter s <= length l -> forallb quiet ops = true ->
  let '(s', k') := run v (s, k) ops in
  s_mode s' = REPLAY /\ s_reading s' = Some (f, c) /\ k' = k /\ s_devices s' = s_devices s /\ s_counter s' = Nat.min (s_counter s + length (plain_drops ops)) (length l).
Proof.
  intros v. induction ops as [|o r IH]; intros s k f c l M R S L K.
  - cbn. repeat split; try assumption. lia.
  - cbn [forallb] in K. apply andb_true_iff in K. destruct K as [K1 K2]. pose proof (replay_step v s k f c l o M R S K1) as Q.
    unfold run. cbn [fold_left]. destruct (fst (apply v (s, k) o)) as [s1 k1]. destruct Q as (Q1 & Q2 & -> & Q4 & _ & Q6).
    specialize (IH s1 k f c l Q1 Q2 S ltac:(lia) K2). fold (run v (s1, k) r). destruct (run v (s1, k) r) as [s2 k2].
    destruct IH as (I1 & I2 & I3 & I4 & I5). repeat split; try assumption; [congruence|].
    rewrite I5, Q6. unfold plain_drops. cbn [flat_map]. rewrite app_nil_r, app_length. lia.
Qed.

(** ** Notifications *)
Lemma in_index : forall {X} (l : list X) i j x, In (j, x) (index_from i l) <-> i <= j /\ nth_error l (j - i) = Some x.
Proof.
  induction l as [|a l IH]; intros i j x; cbn [index_from].
  - split; [intros []|]. intros [_ H]. destruct (j - i); discriminate H.
  - split.
    + intros [E|H]; [injection E as <- <-; rewrite Nat.sub_diag; split; [lia|reflexivity]|]. apply IH in H. destruct H as [L H]. split; [lia|].
      replace (j - i) with (S (j - S i)) by lia. exact H.
    + intros [L H]. destruct (Nat.eq_dec i j) as [->|N]; [rewrite Nat.sub_diag in H; injection H as <-; left; reflexivity|]. right. apply IH. split; [lia|].
      replace (j - i) with (S (j - S i)) in H by lia. exact H.
Qed.
Lemma index_nodup : forall {X} (l : list X) i, NoDup (map fst (index_from i l)).
Proof.
  induction l as [|a l IH]; intro i; cbn [index_from map fst]; constructor; [|apply IH].
  intro H. apply in_map_iff in H. destruct H as ([j x] & E & H). apply in_index in H. cbn in E. lia.
Qed.
(** Events of an indexed list of lists of events are listed once each. *)
Lemma nodup_app' : forall {X} (a b : list X), NoDup a -> NoDup b -> (forall x, In x a -> ~ In x b) -> NoDup (a ++ b).
Proof.
  intros X a b. induction a as [|x a IH]; intros Ha Hb H; [exact Hb|]. inversion Ha as [|? ? H1 H2]; subst. cbn. constructor.
  - intro I. apply in_app_or in I. destruct I as [I|I]; [contradiction|]. apply (H x); [left; reflexivity|exact I].
  - apply IH; [exact H2|exact Hb|]. intros y I. apply H. right. exact I.
Qed.
Lemma nodup_map_index : forall {X} (g : nat -> X -> note) (l : list X) i, (forall a b x y, g a x = g b y -> a = b) -> NoDup (map (fun q => g (fst q) (snd q)) (index_from i l)).
Proof.
  intros X g l. induction l as [|a l IH]; intros i H; cbn [index_from map fst snd]; constructor; [|apply IH; exact H].
  intro I. apply in_map_iff in I. destruct I as ([j x] & E & I). apply in_index in I. cbn in E. apply H in E. lia.
Qed.
Lemma nodup_flat : forall {X} (f : nat * X -> list note) (dev : note -> nat) (l : list X) i,
  (forall j x, In (j, x) (index_from i l) -> NoDup (f (j, x)) /\ forall n, In n (f (j, x)) -> dev n = j) -> NoDup (flat_map f (index_from i l)).
Proof.
  intros X f dev l. induction l as [|a l IH]; intros i H; cbn [index_from flat_map]; [constructor|]. apply nodup_app'.
  - apply (H i a). left. reflexivity.
  - apply IH. intros j x I. apply (H j x). right. exact I.
  - intros n I1 I2. apply in_flat_map in I2. destruct I2 as ([j x] & I2 & I3). pose proof (proj2 (H i a (or_introl eq_refl)) n I1) as E1.
    pose proof (proj2 (H j x (or_intror I2)) n I3) as E2. apply in_index in I2. lia.
Qed.
Definition device_of (n : note) : nat := match n with Transmitted d _ _ => d | Received d _ _ => d end.
Lemma nth_error_combine : forall {X Y} (a : list X) (b : list Y) i, nth_error (combine a b) i =
  match nth_error a i, nth_error b i with Some x, Some y => Some (x, y) | _, _ => None end.
Proof.
  intros X Y a. induction a as [|x a IH]; intros [|y b] [|i]; cbn; try reflexivity; [destruct (nth_error a i); reflexivity|apply IH].
Qed.
Lemma Forall2_nth_error : forall {X Y} (P : X -> Y -> Prop) a b i y, Forall2 P a b -> nth_error b i = Some y -> exists x, nth_error a i = Some x /\ P x y.
Proof. intros X Y P a b i y H. revert i. induction H as [|x y' a b Hp H IH]; intros [|i] E; cbn in *; try discriminate; [injection E as <-; eauto|apply IH; exact E]. Qed.
Lemma sent_notes : forall ds d, fits ds d -> NoDup (transmit_notes ds d) /\
  forall n, In n (transmit_notes ds d) <-> exists i o x, n = Transmitted i o x /\ sent d i o = Some x.
Proof.
  intros ds d [F _]. split.
  - apply (nodup_flat _ device_of). intros j [x l] _. split.
    + apply (nodup_map_index (fun o w => Transmitted j o w)). intros; congruence.
    + intros n I. apply in_map_iff in I. destruct I as (q & <- & _). reflexivity.
  - intro n. unfold transmit_notes. rewrite in_flat_map. split.
    + intros ([i [x l]] & I & J). apply in_index in I. destruct I as [_ I]. rewrite Nat.sub_0_r, nth_error_combine in I.
      destruct (nth_error ds i) as [x'|] eqn:E1; [|discriminate]. destruct (nth_error (d_transmissions d) i) as [l'|] eqn:E2; [|discriminate]. injection I as <- <-.
      apply in_map_iff in J. destruct J as ([o w] & <- & J). apply in_index in J. destruct J as [_ J]. rewrite Nat.sub_0_r in J.
      destruct (Forall2_nth_error _ _ _ _ _ F E2) as (x & Ex & Lx). rewrite E1 in Ex. injection Ex as <-. rewrite firstn_all2 in J by lia.
      exists i, o, w. split; [reflexivity|]. unfold sent. rewrite E2. exact J.
    + intros (i & o & w & -> & E). unfold sent in E. destruct (nth_error (d_transmissions d) i) as [l|] eqn:E2; [|discriminate].
      destruct (Forall2_nth_error _ _ _ _ _ F E2) as (x & Ex & Lx). exists (i, (x, l)). split.
      * apply in_index. split; [lia|]. rewrite Nat.sub_0_r, nth_error_combine, Ex, E2. reflexivity.
      * apply in_map_iff. exists (o, w). split; [reflexivity|]. apply in_index. split; [lia|]. rewrite Nat.sub_0_r, firstn_all2 by lia. exact E.
Qed.
Lemma receive_notes_flat : forall l i, Forall (fun p => length (snd p) = receivers (fst p)) l ->
  receive_notes i l = (flat_map (fun p => map (fun q => Received (fst p) (fst q) (snd q)) (index_from 0 (snd (snd p)))) (index_from i l), None).
Proof.
  induction l as [|[x ins] l IH]; intros i F; [reflexivity|]. inversion F as [|? ? F1 F2]; subst. cbn [receive_notes index_from flat_map fst snd] in *.
  rewrite F1, Nat.eqb_refl. cbn [negb]. rewrite (IH (S i) F2). reflexivity.
Qed.
Lemma got_notes : forall ds d, fits ds d -> exists ns, receive_notes 0 (combine ds (d_inputs d)) = (ns, None) /\ NoDup ns /\
  forall n, In n ns <-> exists i o x, n = Received i o x /\ got d i o = Some x.
Proof.
  intros ds d [_ F]. eexists. split; [|split].
  - apply receive_notes_flat. clear -F. induction F as [|x l ds ls H F IH]; cbn [combine]; constructor; [exact H|exact IH].
  - apply (nodup_flat _ device_of). intros j [x l] _. cbn [fst snd]. split.
    + apply (nodup_map_index (fun o w => Received j o w)). intros; congruence.
    + intros n I. apply in_map_iff in I. destruct I as (q & <- & _). reflexivity.
  - intro n. rewrite in_flat_map. split.
    + intros ([i [x l]] & I & J). apply in_index in I. destruct I as [_ I]. rewrite Nat.sub_0_r, nth_error_combine in I.
      destruct (nth_error ds i) as [x'|] eqn:E1; [|discriminate]. destruct (nth_error (d_inputs d) i) as [l'|] eqn:E2; [|discriminate]. injection I as <- <-.
      cbn [fst snd] in J. apply in_map_iff in J. destruct J as ([o w] & <- & J). apply in_index in J. destruct J as [_ J]. rewrite Nat.sub_0_r in J.
      exists i, o, w. split; [reflexivity|]. unfold got. rewrite E2. exact J.
    + intros (i & o & w & -> & E). unfold got in E. destruct (nth_error (d_inputs d) i) as [l|] eqn:E2; [|discriminate].
      destruct (Forall2_nth_error _ _ _ _ _ F E2) as (x & Ex & Lx). exists (i, (x, l)). split.
      * apply in_index. split; [lia|]. rewrite Nat.sub_0_r, nth_error_combine, Ex, E2. reflexivity.
      * cbn [fst snd]. apply in_map_iff. exists (o, w). split; [reflexivity|]. apply in_index. split; [lia|]. rewrite Nat.sub_0_r. exact E.
Qed.
Lemma count_nodup : forall l n, NoDup l -> times n l = if in_dec note_dec n l then 1 else 0.
Proof.
  intros l n H. unfold times. destruct (in_dec note_dec n l) as [I|I].
  - apply NoDup_count_occ' ; assumption.
  - apply count_occ_not_In. exact I.
Qed.
Lemma replayed_fits : forall ds d, fits ds d -> exists ns, replayed ds d = (ns, None) /\
  (forall i o x, times (Transmitted i o x) ns = match sent d i o with Some y => if y =? x then 1 else 0 | None => 0 end) /\
  (forall i o x, times (Received i o x) ns = match got d i o with Some y => if y =? x then 1 else 0 | None => 0 end).
Proof.
  intros ds d F. destruct (sent_notes ds d F) as [N1 I1]. destruct (got_notes ds d F) as (b & E & N2 & I2). unfold replayed. rewrite E.
  assert (L : length (d_inputs d) = length ds) by (destruct F as [_ F]; clear -F; induction F; cbn; congruence). rewrite L, Nat.eqb_refl. cbn [negb]. eexists. split; [reflexivity|].
  assert (A : forall n, times n (transmit_notes ds d ++ b) = times n (transmit_notes ds d) + times n b) by (intro n; apply count_occ_app). split; intros i o x; rewrite A, (count_nodup _ _ N1), (count_nodup _ _ N2).
  - destruct (in_dec note_dec (Transmitted i o x) b) as [H|H]; [apply I2 in H; destruct H as (? & ? & ? & D & _); discriminate D|].
    destruct (in_dec note_dec (Transmitted i o x) (transmit_notes ds d)) as [J|J].
    + apply I1 in J. destruct J as (i' & o' & x' & D & Q). injection D as <- <- <-. rewrite Q, Nat.eqb_refl. reflexivity.
    + destruct (sent d i o) as [y|] eqn:Q; [|reflexivity]. destruct (Nat.eqb_spec y x) as [->|]; [|reflexivity]. exfalso. apply J, I1. eauto 6.
  - destruct (in_dec note_dec (Received i o x) (transmit_notes ds d)) as [H|H]; [apply I1 in H; destruct H as (? & ? & ? & D & _); discriminate D|].
    destruct (in_dec note_dec (Received i o x) b) as [J|J].
    + apply I2 in J. destruct J as (i' & o' & x' & D & Q). injection D as <- <- <-. rewrite Q, Nat.eqb_refl. reflexivity.
    + destruct (got d i o) as [y|] eqn:Q; [|reflexivity]. destruct (Nat.eqb_spec y x) as [->|]; [|reflexivity]. exfalso. apply J, I2. eauto 6.
Qed.
Lemma receive_notes_misfit : forall l i, Exists (fun p => length (snd p) <> receivers (fst p)) l -> snd (receive_notes i l) = Some ValueError.
Proof.
  intros l i E. revert i. induction E as [[x ins] l H|[x ins] l H IH]; intro i; cbn [receive_notes fst snd] in *.
  - destruct (Nat.eqb_spec (length ins) (receivers x)) as [Q|Q]; [contradiction|]. reflexivity.
  - destruct (negb _); [reflexivity|]. specialize (IH (S i)). destruct (receive_notes (S i) l) as [ns e]. exact IH.
Qed.
