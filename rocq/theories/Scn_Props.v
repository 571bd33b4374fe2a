(** C108: modes of a scenario. *)
From Coq Require Import String List Arith Bool Lia.
From Verif Require Import Base BaseLemmas Scn_Model Scn_Spec Scn_Proofs.
Import ListNotations.
Open Scope nat_scope.

(** Examples used below: two devices, three drops, an empty disk *)
Definition blank : disk := fun _ => None.
Definition dev0 := mkDevice 0 1 1.
Definition dev1 := mkDevice 1 0 2.
Definition dropA := mkDrop [[10]; []] [[11]; [12; 13]].
Definition dropB := mkDrop [[20]; []] [[21]; [22; 23]].
Definition dropC := mkDrop [[30]; []] [[31]; [32; 33]].
Definition camp (x : string) : campaign_name := Some x.
Definition two : list op := [AddDevice dev0; AddDevice dev1].
Definition recorded : list op := two ++ [Record 7 (camp "a") false; Drop false dropA; Drop false dropB; Drop false dropC].

Definition after_recorded : world := run Generating (new_scenario, blank) recorded.
Lemma reachable_recorded : reachable Generating after_recorded.
Proof. exists blank, recorded. reflexivity. Qed.

(** ** Modes *)

(** In any state a user can reach, a scenario writes to a file exactly while recording and reads from one exactly while
    replaying; that file then exists and holds the campaign. *)
Theorem C108_modes : forall v s k, reachable v (s, k) ->
  (s_mode s = RECORD <-> s_writing s <> None) /\ (s_mode s = REPLAY <-> s_reading s <> None) /\
  (forall f c, s_writing s = Some (f, c) \/ s_reading s = Some (f, c) -> exists l, stored k f c = Some l).
Proof.
  intros v s k H. apply reachable_inv in H. cbn in H. destruct (s_mode s) eqn:M.
  - destruct H as [-> ->]. repeat split; try discriminate; try congruence. intros f c [E|E]; discriminate.
  - destruct H as [(p & -> & l & L) ->]. repeat split; try discriminate; try congruence. intros f c [E|E]; [|discriminate]. injection E as ->. exists l. exact L.
  - destruct H as [-> (p & -> & l & L)]. repeat split; try discriminate; try congruence. intros f c [E|E]; [discriminate|]. injection E as ->. exists l. exact L.
Qed.
Print Assumptions C108_modes.
Example C108_modes_met : reachable Generating after_recorded /\ s_mode (fst after_recorded) = RECORD.
Proof. split; [exact reachable_recorded|reflexivity]. Qed.

(** Consequently a call without timestamp fails for reasons of missing files or processes in no reachable state:
    generating scenarios that do not replay always return the new drop. *)
Theorem C108_drop_available : forall s k d, reachable Generating (s, k) -> s_mode s <> REPLAY -> snd (apply Generating (s, k) (Drop false d)) = Ok (Dropped d []).
Proof.
  intros s k d H N. apply reachable_inv in H. cbn [apply]. unfold do_drop. destruct (mode_eqb_spec (s_mode s) REPLAY) as [E|_]; [contradiction|].
  destruct (mode_eqb_spec (s_mode s) RECORD) as [E|E]; [|reflexivity]. cbn in H. rewrite E in H. destruct H as [([f c] & W & l & L) _]. rewrite W. unfold stored in L. cbn [fst snd] in L.
  destruct (k f); [reflexivity|discriminate].
Qed.
Print Assumptions C108_drop_available.
Example C108_drop_available_met : reachable Generating after_recorded /\ s_mode (fst after_recorded) = RECORD /\ s_counter (fst after_recorded) = 3.
Proof. split; [exact reachable_recorded|split; reflexivity]. Qed.

(** Devices may be added in the default mode only: in other modes the call raises and changes nothing. *)
Theorem C108_devices : forall v s k d, reachable v (s, k) ->
  let '((s', k'), r) := apply v (s, k) (AddDevice d) in
  k' = k /\ s_mode s' = s_mode s /\
  if existsb (fun x => name x =? name d) (s_devices s) then r = Raise ValueError /\ s' = s
  else if mode_eqb (s_mode s) DEFAULT then r = Ok Done /\ s_devices s' = s_devices s ++ [d]
  else r = Raise RuntimeError /\ s' = s.
Proof.
  intros v s k d _. cbn [apply fst snd]. unfold add_device. destruct (existsb _ _); [repeat split|]. destruct (mode_eqb (s_mode s) DEFAULT); cbn [negb]; repeat split.
Qed.
Print Assumptions C108_devices.
(** No other call changes the devices. *)
Theorem C108_devices_fixed : forall v s k o, (forall d, o <> AddDevice d) -> s_devices (fst (fst (apply v (s, k) o))) = s_devices s.
Proof.
  intros v s k o N. destruct o as [d|c|f c ow|f c n| |st d]; cbn [apply fst snd].
  - contradiction (N d eq_refl).
  - pose proof (set_campaign_keeps s c) as K. destruct (set_campaign s c). cbn in *. apply K.
  - unfold record. destruct (negb _); [reflexivity|]. match goal with |- context [set_campaign ?x ?y] => pose proof (set_campaign_keeps x y) as K; destruct (set_campaign x y) end. cbn in *. apply K.
  - unfold replay. destruct (match f with Some g => Some g | None => s_replay_file s end) as [g|]; [|reflexivity]. destruct (drops_in k g c); [|reflexivity]. destruct (_ <=? _); [reflexivity|].
    cbn [fst s_devices]. apply stop_clears.
  - apply stop_clears.
  - unfold do_drop. destruct st; [destruct v; reflexivity|]. destruct (mode_eqb (s_mode s) REPLAY).
    + destruct (s_reading s) as [[f c]|]; [|reflexivity]. destruct (drops_in k f c); [|reflexivity]. destruct (nth_error _ _); [|reflexivity]. destruct (replayed _ _). reflexivity.
    + destruct v; [|reflexivity]. destruct (mode_eqb (s_mode s) RECORD); [|reflexivity]. destruct (s_writing s) as [[f c]|]; [|reflexivity]. destruct (k f); reflexivity.
Qed.
Print Assumptions C108_devices_fixed.
Example C108_devices_fixed_met : forall d, Stop <> AddDevice d.
Proof. discriminate. Qed.
Example C108_devices_met : reachable Generating after_recorded /\ s_mode (fst after_recorded) = RECORD /\ existsb (fun x => name x =? 5) (s_devices (fst after_recorded)) = false.
Proof. split; [exact reachable_recorded|split; reflexivity]. Qed.

(** ** Recording *)

(** A recording started in the default mode stores, in order, exactly the drops generated without timestamp until it is stopped
    or a replay starts, whatever else is called in between; they follow the drops of the campaign already in the file unless the
    file was to be overwritten.  No other campaign of any file changes, except that overwriting removes the file's other
    campaigns and that a new file has an (empty) group of no campaign. *)
Theorem C108_recording : forall s k f c ow ops, reachable Generating (s, k) -> s_mode s = DEFAULT -> campaign_name_ok c -> forallb keeps_recording ops = true ->
  let w1 := apply Generating (s, k) (Record f c ow) in
  let '(s2, k2) := run Generating (fst w1) ops in
  snd w1 = Ok Done /\ s_mode s2 = RECORD /\
  stored k2 f c = Some ((if ow then [] else match stored k f c with Some l => l | None => [] end) ++ plain_drops ops) /\
  (forall f' c', f' <> f -> stored k2 f' c' = stored k f' c') /\
  (forall n, Some n <> c -> stored k2 f (Some n) = if ow then None else stored k f (Some n)).
Proof.
  intros s k f c ow ops H M C K. cbn zeta. pose proof (reachable_inv _ _ H) as I. cbn in I. rewrite M in I. destruct I as [W Rd].
  cbn [apply]. unfold record. rewrite M. cbn [mode_eqb negb]. set (k1 := if ow then set_file k f None else k). set (s1 := mkScn _ _ _ _ _ _ _).
  assert (Q : snd (set_campaign s1 c) = Ok Done) by (unfold set_campaign; destruct (campaign_dec c (Some "state"%string)); [contradiction|]; destruct (campaign_dec c (s_campaign s1)); reflexivity).
  pose proof (set_campaign_keeps s1 c) as S1. destruct (set_campaign s1 c) as [s' r]. cbn in Q, S1. destruct S1 as (S1 & S2 & S3 & S4 & _). cbn [fst snd].
  destruct (stored_opened k1 f c) as (l & L1 & L2).
  pose proof (recording_run ops s' (open_for_writing k1 f c) f c l S1 S3 (eq_trans S4 Rd) L1 K) as R.
  destruct (run Generating (s', open_for_writing k1 f c) ops) as [s2 k2]. destruct R as (R1 & R2 & R3 & R4 & R5).
  assert (O : forall f' c', stored k1 f' c' = if ow then (if f' =? f then None else stored k f' c') else stored k f' c') by (intros f' c'; unfold k1; destruct ow; [apply stored_removed|reflexivity]).
  split; [exact Q|]. split; [exact R1|]. split; [|split].
  - rewrite R3, L2, O, Nat.eqb_refl. destruct ow; reflexivity.
  - intros f' c' N. rewrite R4 by congruence. destruct (stored_opened_other k1 f c f' c') as [E|(_ & E & _)]; [congruence| |contradiction]. rewrite E, O.
    destruct (Nat.eqb_spec f' f) as [->|_]; [contradiction|]. destruct ow; reflexivity.
  - intros n N. rewrite R4 by congruence. destruct (stored_opened_other k1 f c f (Some n)) as [E|(_ & _ & E)]; [congruence| |discriminate]. rewrite E, O, Nat.eqb_refl. reflexivity.
Qed.
Print Assumptions C108_recording.
Example C108_recording_met : reachable Generating (run Generating (new_scenario, blank) two) /\ s_mode (fst (run Generating (new_scenario, blank) two)) = DEFAULT /\
  campaign_name_ok (camp "a") /\ forallb keeps_recording [Drop false dropA; AddDevice (mkDevice 5 1 1); Drop true dropB; SetCampaign (camp "b"); Drop false dropC] = true /\
  plain_drops [Drop false dropA; AddDevice (mkDevice 5 1 1); Drop true dropB; SetCampaign (camp "b"); Drop false dropC] = [dropA; dropC].
Proof. split; [exists blank, two; reflexivity|]. repeat split. discriminate. Qed.

(** While recording, the number of drops counts the recorded drops of this recording, as long as the campaign is not changed. *)
Theorem C108_recorded_number : forall s k f c ow ops, reachable Generating (s, k) -> s_mode s = DEFAULT -> campaign_name_ok c -> forallb keeps_recording ops = true ->
  (forall c', In (SetCampaign c') ops -> c' = c) ->
  let w2 := run Generating (fst (apply Generating (s, k) (Record f c ow))) ops in
  num_drops (fst w2) = length (plain_drops ops) /\ s_campaign (fst w2) = c.
Proof.
  intros s k f c ow ops H M C K N. cbn zeta. pose proof (reachable_inv _ _ H) as I. cbn in I. rewrite M in I. destruct I as [W Rd].
  cbn [apply]. unfold record. rewrite M. cbn [mode_eqb negb]. set (k1 := if ow then set_file k f None else k). set (s1 := mkScn _ _ _ _ _ _ _).
  assert (Q : s_counter (fst (set_campaign s1 c)) = 0 /\ s_campaign (fst (set_campaign s1 c)) = c).
  { unfold set_campaign. destruct (campaign_dec c (Some "state"%string)); [contradiction|]. destruct (campaign_dec c (s_campaign s1)) as [E|E]; [split; [reflexivity|symmetry; exact E]|split; reflexivity]. }
  pose proof (set_campaign_keeps s1 c) as S1. destruct (set_campaign s1 c) as [s' r]. cbn in Q, S1. destruct S1 as (S1 & S2 & S3 & S4 & _). cbn [fst snd].
  destruct (stored_opened k1 f c) as (l & L1 & _). destruct Q as [Q1 Q2].
  assert (G : forall ops s0 k0 l0, s_mode s0 = RECORD -> s_writing s0 = Some (f, c) -> s_reading s0 = None -> stored k0 f c = Some l0 -> s_campaign s0 = c -> forallb keeps_recording ops = true ->
    (forall c', In (SetCampaign c') ops -> c' = c) ->
    let s2 := fst (run Generating (s0, k0) ops) in s_mode s2 = RECORD /\ s_counter s2 = s_counter s0 + length (plain_drops ops) /\ s_campaign s2 = c).
  { clear - C. induction ops as [|o r IH]; intros s0 k0 l0 M W Rd L Cc K N; cbn zeta.
    - cbn. repeat split; try assumption. lia.
    - cbn [forallb] in K. apply andb_true_iff in K. destruct K as [K1 K2].
      pose proof (recording_step s0 k0 f c l0 o M W Rd L K1) as A. pose proof (counter_step s0 k0 f c l0 o M W L K1) as B.
      assert (Cc' : s_campaign (fst (fst (apply Generating (s0, k0) o))) = c).
      { destruct o as [d|c0|f0 c0 ow|f0 c0 n| |st d]; cbn [apply fst snd]; try discriminate K1.
        - unfold add_device. destruct (existsb _ _); [exact Cc|]. destruct (negb _); exact Cc.
        - pose proof (N c0 (or_introl eq_refl)) as ->. unfold set_campaign. destruct (campaign_dec c (Some "state"%string)); [exact Cc|]. destruct (campaign_dec c (s_campaign s0)); [exact Cc|congruence].
        - unfold record. rewrite M. exact Cc.
        - unfold do_drop. destruct st; [exact Cc|]. rewrite M. cbn [mode_eqb]. rewrite W. destruct (k0 f); exact Cc. }
      assert (B' : s_counter (fst (fst (apply Generating (s0, k0) o))) = s_counter s0 + length (plain_drops [o])).
      { rewrite B. destruct o as [d|c0|f0 c0 ow|f0 c0 n| |st d]; try reflexivity. pose proof (N c0 (or_introl eq_refl)) as ->.
        destruct (campaign_dec c (Some "state"%string)); [cbn; lia|]. destruct (campaign_dec c (s_campaign s0)); [cbn; lia|congruence]. }
      unfold run. cbn [fold_left]. destruct (fst (apply Generating (s0, k0) o)) as [s2 k2]. cbn [fst] in Cc', B'. destruct A as (A1 & A2 & A3 & A4 & _).
      destruct (IH s2 k2 _ A1 A2 A3 A4 Cc' K2 ltac:(intros c' Hc; apply N; right; exact Hc)) as (I1 & I2 & I3). split; [exact I1|]. split; [|exact I3].
      fold (run Generating (s2, k2) r). rewrite I2, B'. unfold plain_drops. cbn [flat_map]. rewrite app_nil_r, app_length. lia. }
  destruct (G ops s' (open_for_writing k1 f c) l S1 S3 (eq_trans S4 Rd) L1 Q2 K N) as (G1 & G2 & G3). split; [|exact G3]. unfold num_drops. rewrite G1. cbn [mode_eqb]. rewrite G2, Q1. reflexivity.
Qed.
Print Assumptions C108_recorded_number.
Example C108_recorded_number_met : forall c', In (SetCampaign c') [Drop false dropA; SetCampaign (camp "a"); Drop true dropB; Drop false dropC] -> c' = camp "a".
Proof. intros c' [E|[E|[E|[E|[]]]]]; try discriminate. congruence. Qed.

(** Choosing another campaign during a recording does not start another one: the name and the number of drops change as
    requested, but the drops still go to the campaign the recording was started with. *)
Theorem C108_campaign_refuted : forall s k f c c' ow d, reachable Generating (s, k) -> s_mode s = DEFAULT -> campaign_name_ok c -> campaign_name_ok c' -> c' <> c -> c' <> None ->
  let w1 := run Generating (s, k) [Record f c ow; SetCampaign c'] in
  let '(s2, k2) := run Generating w1 [Drop false d] in
  s_campaign s2 = c' /\ num_drops s2 = 1 /\ stored k2 f c' = stored (snd w1) f c' /\
  exists l, stored (snd w1) f c = Some l /\ stored k2 f c = Some (l ++ [d]).
Proof.
  intros s k f c c' ow d H M C C' D N. cbn zeta. pose proof (reachable_inv _ _ H) as I. cbn in I. rewrite M in I. destruct I as [W Rd].
  set (k1 := if ow then set_file k f None else k). destruct (stored_opened k1 f c) as (l & L1 & _).
  assert (G : forall s1, s_mode s1 = RECORD -> s_writing s1 = Some (f, c) -> s_campaign s1 = c ->
    let '(s2, k2) := fst (apply Generating (fst (apply Generating (s1, open_for_writing k1 f c) (SetCampaign c'))) (Drop false d)) in
    s_campaign s2 = c' /\ num_drops s2 = 1 /\ stored k2 f c' = stored (snd (fst (apply Generating (s1, open_for_writing k1 f c) (SetCampaign c')))) f c' /\
    exists l, stored (snd (fst (apply Generating (s1, open_for_writing k1 f c) (SetCampaign c')))) f c = Some l /\ stored k2 f c = Some (l ++ [d])).
  { intros s1 E1 E2 E3. cbn [apply fst snd]. unfold set_campaign. destruct (campaign_dec c' (Some "state"%string)) as [|_]; [contradiction|].
    destruct (campaign_dec c' (s_campaign s1)) as [|_]; [congruence|]. rewrite E1. cbn [mode_eqb fst snd]. unfold do_drop. cbn [s_mode s_writing s_devices]. rewrite ?E1, ?E2. cbn [mode_eqb].
    destruct (open_for_writing k1 f c f) as [x|] eqn:X; [|unfold stored in L1; rewrite X in L1; discriminate].
    cbn [fst snd s_campaign s_mode s_counter num_drops mode_eqb]. split; [reflexivity|]. split; [unfold num_drops; cbn [s_mode]; rewrite ?E1; reflexivity|]. split.
    - rewrite (stored_set _ f x c _ f c' X), Nat.eqb_refl. destruct (campaign_dec c' c); [contradiction|reflexivity].
    - exists l. split; [exact L1|]. rewrite (stored_set _ f x c _ f c X), Nat.eqb_refl. destruct (campaign_dec c c); [|contradiction]. unfold stored in L1. rewrite X in L1. rewrite L1. reflexivity. }
  assert (A : exists s1, fst (apply Generating (s, k) (Record f c ow)) = (s1, open_for_writing k1 f c) /\ s_mode s1 = RECORD /\ s_writing s1 = Some (f, c) /\ s_campaign s1 = c).
  { cbn [apply]. unfold record. rewrite M. cbn [mode_eqb negb]. set (s1 := mkScn _ _ _ _ _ _ _). pose proof (set_campaign_keeps s1 c) as Q.
    assert (Q2 : s_campaign (fst (set_campaign s1 c)) = c).
    { unfold set_campaign. destruct (campaign_dec c (Some "state"%string)); [contradiction|]. destruct (campaign_dec c (s_campaign s1)) as [E|E]; [symmetry; exact E|reflexivity]. }
    destruct (set_campaign s1 c) as [s' r]. cbn [fst] in *. exists s'. split; [reflexivity|]. split; [apply Q|]. split; [apply Q|exact Q2]. }
  destruct A as (s1 & A0 & A1 & A2 & A3). specialize (G s1 A1 A2 A3). unfold run. cbn [fold_left]. rewrite A0. exact G.
Qed.
Print Assumptions C108_campaign_refuted.
Example C108_campaign_refuted_met : let '(s, k) := run Generating (new_scenario, blank) [Record 7 (camp "a") false; SetCampaign (camp "b"); Drop false dropA] in
  stored k 7 (camp "a") = Some [dropA] /\ stored k 7 (camp "b") = None /\ s_campaign s = camp "b".
Proof. vm_compute. repeat split. Qed.

(** Drops generated with a timestamp are neither recorded nor replayed nor counted, in any mode. *)
Theorem C108_timestamp_refuted : forall s k d, apply Generating (s, k) (Drop true d) = ((s, k), Ok (Dropped d [])).
Proof. reflexivity. Qed.
Print Assumptions C108_timestamp_refuted.
Example C108_timestamp_refuted_met : let w := run Generating (new_scenario, blank) [Record 7 (camp "a") false; Drop true dropA] in
  s_mode (fst w) = RECORD /\ stored (snd w) 7 (camp "a") = Some [].
Proof. vm_compute. split; reflexivity. Qed.

(** Starting a recording in any other mode raises and changes nothing. *)
Theorem C108_record_refused : forall v s k f c ow, s_mode s <> DEFAULT -> apply v (s, k) (Record f c ow) = ((s, k), Raise RuntimeError).
Proof. intros v s k f c ow H. cbn [apply]. unfold record. destruct (mode_eqb_spec (s_mode s) DEFAULT) as [E|E]; [contradiction|reflexivity]. Qed.
Print Assumptions C108_record_refused.
Example C108_record_refused_met : s_mode (fst (run Generating (new_scenario, blank) recorded)) <> DEFAULT.
Proof. discriminate. Qed.

(** A recording refused because of the reserved campaign name has nevertheless removed the file to be overwritten, and the
    scenario records from then on. *)
Theorem C108_reserved_campaign_refuted : forall v s k f, s_mode s = DEFAULT ->
  let '((s', k'), r) := apply v (s, k) (Record f (camp "state") true) in
  r = Raise ValueError /\ s_mode s' = RECORD /\ stored k' f (camp "state") = Some [] /\ forall n, n <> "state"%string -> stored k' f (Some n) = None.
Proof.
  intros v s k f M. cbn [apply]. unfold record. rewrite M. cbn [mode_eqb negb]. unfold set_campaign. destruct (campaign_dec (camp "state") (Some "state"%string)) as [_|N]; [|contradiction N; reflexivity].
  split; [reflexivity|]. split; [reflexivity|]. destruct (stored_opened (set_file k f None) f (camp "state")) as (l & L1 & L2). rewrite stored_removed, Nat.eqb_refl in L2. subst l. split; [exact L1|].
  intros n N. destruct (stored_opened_other (set_file k f None) f (camp "state") f (Some n)) as [E|(_ & _ & E)]; [unfold camp; congruence| |discriminate]. rewrite E, stored_removed, Nat.eqb_refl. reflexivity.
Qed.
Print Assumptions C108_reserved_campaign_refuted.
Example C108_reserved_campaign_refuted_met : s_mode new_scenario = DEFAULT.
Proof. reflexivity. Qed.

(** Without recording, drops leave no trace at all. *)
Theorem C108_default_drops : forall s k st d, s_mode s = DEFAULT -> apply Generating (s, k) (Drop st d) = ((s, k), Ok (Dropped d [])).
Proof. intros s k [] d M; [reflexivity|]. cbn [apply]. unfold do_drop. rewrite M. reflexivity. Qed.
Print Assumptions C108_default_drops.
(** Scenarios that can only replay never generate drops. *)
Theorem C108_replay_only : forall s k st d, s_mode s <> REPLAY \/ st = true -> apply ReplayOnly (s, k) (Drop st d) = ((s, k), Raise RuntimeError).
Proof. intros s k [] d H; [reflexivity|]. cbn [apply]. unfold do_drop. destruct (mode_eqb_spec (s_mode s) REPLAY) as [E|_]; [|reflexivity]. destruct H; congruence. Qed.
Print Assumptions C108_replay_only.
Example C108_default_drops_met : s_mode new_scenario = DEFAULT /\ s_mode new_scenario <> REPLAY.
Proof. split; [reflexivity|discriminate]. Qed.

(** ** Replaying *)

(** A replay starts, from any mode, if and only if a file is known, it exists, it holds the campaign and more drops than are to
    be skipped; the number of remaining drops is returned and nothing on disk changes. *)
Theorem C108_replay_starts : forall v s k f c n g,
  (match f with Some g => Some g | None => s_replay_file s end) = Some g ->
  let '((s', k'), r) := apply v (s, k) (Replay f c n) in
  k' = k /\
  match stored k g c with
  | Some l => if n <? length l then
      r = Ok (Number (length l - n)) /\ s_mode s' = REPLAY /\ s_reading s' = Some (g, c) /\ s_writing s' = None /\ num_drops s' = n /\ s_campaign s' = c
    else r = Raise ValueError /\ s' = s
  | None => r = Raise (match k g with None => FileNotFoundError | Some _ => RuntimeError end) /\ s' = s
  end.
Proof.
  intros v s k f c n g E. cbn [apply]. unfold replay. rewrite E. unfold drops_in, stored. destruct (k g) as [x|]; [|repeat split]. destruct (x c) as [l|]; [|repeat split].
  destruct (Nat.leb_spec (length l) n) as [L|L]; destruct (Nat.ltb_spec n (length l)) as [L'|L']; try lia; [repeat split|].
  cbn [s_mode s_reading s_writing s_campaign]. repeat split. apply stop_clears.
Qed.
Print Assumptions C108_replay_starts.
Example C108_replay_starts_met : let '(s, k) := run Generating (new_scenario, blank) (recorded ++ [Replay (Some 7) (camp "a") 1]) in
  s_mode s = REPLAY /\ num_drops s = 1 /\ stored k 7 (camp "a") = Some [dropA; dropB; dropC] /\ s_replay_file s = Some 7.
Proof. vm_compute. repeat split. Qed.
(** Without any file the call raises a ValueError (the documentation promises a RuntimeError) and changes nothing. *)
Theorem C108_replay_without_file : forall v s k c n, s_replay_file s = None -> apply v (s, k) (Replay None c n) = ((s, k), Raise ValueError).
Proof. intros v s k c n E. cbn [apply]. unfold replay. rewrite E. reflexivity. Qed.
Print Assumptions C108_replay_without_file.
Example C108_replay_without_file_met : s_replay_file (fst (run Generating (new_scenario, blank) recorded)) = None.
Proof. reflexivity. Qed.
(** A campaign that is not contained raises a RuntimeError where the documentation promises a ValueError; without a campaign
    argument the drops outside of any campaign are looked for, not those of the campaign replayed or recorded before. *)
Theorem C108_replay_campaign_refuted : let w := run Generating (new_scenario, blank) (recorded ++ [Stop]) in
  s_campaign (fst w) = camp "a" /\
  snd (apply Generating w (Replay (Some 7) (camp "b") 0)) = Raise RuntimeError /\
  snd (apply Generating w (Replay (Some 7) None 0)) = Raise ValueError /\
  snd (apply Generating w (Replay (Some 7) (camp "a") 0)) = Ok (Number 3).
Proof. vm_compute. repeat split. Qed.
Print Assumptions C108_replay_campaign_refuted.

(** During a replay the k-th drop requested is the recorded drop number offset + k, whatever drop the scenario would have
    generated and whichever calls to add devices, start recordings or generate stamped drops come in between; requests beyond
    the recorded drops raise an IndexError.  A drop that does not fit the inputs of the devices raises a ValueError but counts. *)
Theorem C108_replayed_drops : forall v s k f c n l ops d, stored k f c = Some l -> n < length l -> forallb quiet ops = true ->
  let '(s1, k1) := run v (s, k) (Replay (Some f) c n :: ops) in
  k1 = k /\ s_devices s1 = s_devices s /\ num_drops s1 = Nat.min (n + length (plain_drops ops)) (length l) /\
  let '((s2, k2), r) := apply v (s1, k1) (Drop false d) in
  k2 = k /\
  match nth_error l (n + length (plain_drops ops)) with
  | None => r = Raise IndexError /\ s2 = s1
  | Some e => num_drops s2 = S (n + length (plain_drops ops)) /\
              (fits (s_devices s) e -> exists ns, r = Ok (Dropped e ns)) /\
              (length (d_inputs e) <> length (s_devices s) \/ Exists (fun p => length (snd p) <> receivers (fst p)) (combine (s_devices s) (d_inputs e)) -> r = Raise ValueError)
  end.
Proof.
  intros v s k f c n l ops d S L K. unfold run. cbn [fold_left]. pose proof (C108_replay_starts v s k (Some f) c n f eq_refl) as A. rewrite S in A.
  pose proof (C108_devices_fixed v s k (Replay (Some f) c n) ltac:(discriminate)) as D0.
  destruct (apply v (s, k) (Replay (Some f) c n)) as [[s0 k0] r0]. cbn [fst] in D0 |- *. destruct A as [-> A]. destruct (Nat.ltb_spec n (length l)) as [_|]; [|lia].
  destruct A as (_ & A1 & A2 & _ & A3 & _). unfold num_drops in A3. rewrite A1 in A3. cbn [mode_eqb] in A3.
  pose proof (replay_run v ops s0 k f c l A1 A2 S ltac:(lia) K) as R. fold (run v (s0, k) ops). destruct (run v (s0, k) ops) as [s1 k1]. destruct R as (R1 & R2 & -> & R4 & R5).
  rewrite A3 in R5. split; [reflexivity|]. split; [congruence|]. split; [unfold num_drops; rewrite R1; exact R5|].
  cbn [apply]. unfold do_drop. rewrite R1. cbn [mode_eqb]. rewrite R2, (proj2 (drops_in_stored k f c l) S), R5.
  destruct (nth_error l (n + length (plain_drops ops))) as [e|] eqn:N.
  - assert (B : n + length (plain_drops ops) < length l) by (apply nth_error_Some; congruence). rewrite Nat.min_l by lia. rewrite N.
    destruct (replayed (s_devices s1) e) as [ns x] eqn:Q. cbn [fst]. split; [reflexivity|]. rewrite R4, D0 in Q. split; [unfold num_drops; cbn [s_mode s_counter]; rewrite ?R1; cbn [mode_eqb]; lia|]. split.
    + intro F. destruct (replayed_fits _ _ F) as (ns' & Q' & _). rewrite Q in Q'. injection Q' as -> ->. eauto.
    + intro F. assert (X : x = Some ValueError); [|rewrite X; reflexivity]. unfold replayed in Q. destruct (Nat.eqb_spec (length (d_inputs e)) (length (s_devices s))) as [E|E]; cbn [negb] in Q.
      * destruct F as [F|F]; [contradiction|]. pose proof (receive_notes_misfit _ 0 F) as G. destruct (receive_notes 0 (combine (s_devices s) (d_inputs e))) as [gs ge]. cbn in G. injection Q as _ <-. exact G.
      * injection Q as _ <-. reflexivity.
  - apply nth_error_None in N. replace (nth_error l (Nat.min (n + length (plain_drops ops)) (length l))) with (@None drop); [cbn; auto|]. symmetry. apply nth_error_None. lia.
Qed.
Print Assumptions C108_replayed_drops.
Example C108_replayed_drops_met : stored (snd (run Generating (new_scenario, blank) recorded)) 7 (camp "a") = Some [dropA; dropB; dropC] /\
  forallb quiet [Drop false dropC; AddDevice (mkDevice 5 1 1); Drop true dropA; Drop false dropC] = true /\ fits [dev0; dev1] dropB.
Proof. vm_compute. repeat split; repeat constructor. Qed.

(** When a fitting drop is replayed, each transmitter is told its recorded transmission and each receiver its recorded input, once each, and
    nobody anything else. *)
Theorem C108_replay_notes : forall v s k f c n l d e ns, stored k f c = Some l -> n < length l ->
  snd (apply v (run v (s, k) [Replay (Some f) c n]) (Drop false d)) = Ok (Dropped e ns) -> fits (s_devices s) e ->
  (forall i o x, times (Transmitted i o x) ns = match sent e i o with Some y => if y =? x then 1 else 0 | None => 0 end) /\
  (forall i o x, times (Received i o x) ns = match got e i o with Some y => if y =? x then 1 else 0 | None => 0 end).
Proof.
  intros v s k f c n l d e ns S L E F. unfold run in E. cbn [fold_left] in E. pose proof (C108_replay_starts v s k (Some f) c n f eq_refl) as A. rewrite S in A.
  pose proof (C108_devices_fixed v s k (Replay (Some f) c n) ltac:(discriminate)) as D0.
  destruct (apply v (s, k) (Replay (Some f) c n)) as [[s0 k0] r0]. cbn [fst] in D0, E. destruct A as [-> A]. destruct (Nat.ltb_spec n (length l)) as [_|]; [|lia].
  destruct A as (_ & A1 & A2 & _). cbn [apply] in E. unfold do_drop in E. rewrite A1 in E. cbn [mode_eqb] in E. rewrite A2, (proj2 (drops_in_stored k f c l) S) in E.
  destruct (nth_error l (s_counter s0)) as [e'|]; [|discriminate]. rewrite D0 in E. destruct (replayed (s_devices s) e') as [ns' [x|]] eqn:Q; cbn in E; [discriminate|]. injection E as -> ->.
  destruct (replayed_fits _ _ F) as (ns'' & Q' & G1 & G2). rewrite Q in Q'. injection Q' as ->. split; assumption.
Qed.
Print Assumptions C108_replay_notes.
Example C108_replay_notes_met : let '(s, k) := run Generating (new_scenario, blank) recorded in
  snd (apply Generating (run Generating (s, k) [Replay (Some 7) (camp "a") 1]) (Drop false dropA)) =
  Ok (Dropped dropB [Transmitted 0 0 20; Received 0 0 21; Received 1 0 22; Received 1 1 23]) /\ fits (s_devices s) dropB.
Proof. vm_compute. split; [reflexivity|]. repeat split; repeat constructor. Qed.

(** Recording and replaying are inverse: what was recorded into a fresh campaign is returned drop by drop. *)
Theorem C108_round_trip : forall s k f c ops i d fresh, reachable Generating (s, k) -> s_mode s = DEFAULT -> campaign_name_ok c -> stored k f c = None ->
  forallb keeps_recording ops = true -> nth_error (plain_drops ops) i = Some d -> fits (s_devices s) d ->
  let w := run Generating (s, k) (Record f c false :: ops) in
  snd (apply Generating w (Replay (Some f) c i)) = Ok (Number (length (plain_drops ops) - i)) /\
  exists ns, snd (apply Generating (run Generating w [Replay (Some f) c i]) (Drop false fresh)) = Ok (Dropped d ns).
Proof.
  intros s k f c ops i d fresh H M C S0 K N F. cbn zeta. pose proof (C108_recording s k f c false ops H M C K) as R. cbn zeta in R.
  assert (Dv : s_devices (fst (run Generating (s, k) (Record f c false :: ops))) = s_devices s).
  { pose proof (C108_devices_fixed Generating s k (Record f c false) ltac:(discriminate)) as D0.
    pose proof (C108_modes Generating s k H) as _. pose proof (C108_recording s k f c false [] H M C eq_refl) as R0. cbn zeta in R0. unfold run in R0 |- *. cbn [fold_left] in R0 |- *.
    assert (W : s_writing (fst (fst (apply Generating (s, k) (Record f c false)))) = Some (f, c) /\ s_reading (fst (fst (apply Generating (s, k) (Record f c false)))) = None).
    { pose proof (reachable_inv _ _ H) as I. cbn in I. rewrite M in I. destruct I as [_ Rd]. cbn [apply]. unfold record. rewrite M. cbn [mode_eqb negb].
      match goal with |- context [set_campaign ?x ?y] => pose proof (set_campaign_keeps x y) as Q; destruct (set_campaign x y) end. cbn in *. destruct Q as (_ & _ & Q1 & Q2 & _). rewrite Q1, Q2. split; [reflexivity|exact Rd]. }
    destruct (fst (apply Generating (s, k) (Record f c false))) as [s1 k1]. cbn [fst] in *. destruct R0 as (_ & R1 & R2 & _).
    pose proof (recording_run ops s1 k1 f c _ R1 (proj1 W) (proj2 W) R2 K) as Q. fold (run Generating (s1, k1) ops). destruct (run Generating (s1, k1) ops) as [s2 k2]. cbn. destruct Q as (_ & _ & _ & _ & Q). congruence. }
  unfold run in Dv |- *. cbn [fold_left] in Dv |- *. unfold run in R. destruct (fold_left _ ops (fst (apply Generating (s, k) (Record f c false)))) as [s2 k2]. destruct R as (_ & _ & R & _ & _). rewrite S0 in R. cbn [app] in R.
  assert (Li : i < length (plain_drops ops)) by (apply nth_error_Some; congruence). split.
  - pose proof (C108_replay_starts Generating s2 k2 (Some f) c i f eq_refl) as A. rewrite R in A. destruct (apply Generating (s2, k2) (Replay (Some f) c i)) as [[s3 k3] r]. destruct A as [_ A].
    destruct (Nat.ltb_spec i (length (plain_drops ops))) as [_|]; [|lia]. cbn. apply A.
  - pose proof (C108_replayed_drops Generating s2 k2 f c i (plain_drops ops) [] fresh R Li eq_refl) as A. unfold run in A. cbn [fold_left plain_drops flat_map length] in A. rewrite Nat.add_0_r in A.
    destruct (fst (apply Generating (s2, k2) (Replay (Some f) c i))) as [s3 k3]. destruct A as (-> & _ & _ & A). destruct (apply Generating (s3, k2) (Drop false fresh)) as [[s4 k4] r]. destruct A as [_ A].
    cbn [fst] in Dv. change (flat_map (fun o => match o with Drop false d0 => [d0] | _ => [] end) ops) with (plain_drops ops) in A. rewrite N in A. cbn. apply A. rewrite Dv. exact F.
Qed.
Print Assumptions C108_round_trip.
Example C108_round_trip_met : nth_error (plain_drops [Drop false dropA; Drop true dropC; Drop false dropB]) 1 = Some dropB /\ fits [dev0; dev1] dropB /\ stored blank 7 (camp "a") = None.
Proof. split; [reflexivity|]. split; [split; repeat constructor|reflexivity]. Qed.

(** Choosing another campaign during a replay raises, yet rewinds the replay to the very first drop, skipped drops included. *)
Theorem C108_rewind_refuted : forall v s k f c c' n l ops d, stored k f c = Some l -> n < length l -> forallb quiet ops = true -> campaign_name_ok c' -> c' <> c ->
  let w := run v (s, k) (Replay (Some f) c n :: ops) in
  let '(w2, r) := apply v w (SetCampaign c') in
  r = Raise NotImplementedError /\ num_drops (fst w2) = 0 /\ s_campaign (fst w2) = c /\
  (forall e, nth_error l 0 = Some e -> fits (s_devices s) e -> exists ns, snd (apply v w2 (Drop false d)) = Ok (Dropped e ns)).
Proof.
  intros v s k f c c' n l ops d S L K C D. cbn zeta. unfold run. cbn [fold_left]. pose proof (C108_replay_starts v s k (Some f) c n f eq_refl) as A. rewrite S in A.
  pose proof (C108_devices_fixed v s k (Replay (Some f) c n) ltac:(discriminate)) as D0.
  destruct (apply v (s, k) (Replay (Some f) c n)) as [[s0 k0] r0]. cbn [fst] in D0 |- *. destruct A as [-> A]. destruct (Nat.ltb_spec n (length l)) as [_|]; [|lia].
  destruct A as (_ & A1 & A2 & _ & A3 & A4). unfold num_drops in A3. rewrite A1 in A3. cbn [mode_eqb] in A3.
  assert (G : forall ops s0, s_mode s0 = REPLAY -> s_reading s0 = Some (f, c) -> s_campaign s0 = c -> forallb quiet ops = true ->
     let '(s1, k1) := run v (s0, k) ops in s_mode s1 = REPLAY /\ s_reading s1 = Some (f, c) /\ k1 = k /\ s_devices s1 = s_devices s0 /\ s_campaign s1 = c).
  { clear - S. induction ops as [|o r IH]; intros s0 M R E K; [cbn; auto|]. cbn [forallb] in K. apply andb_true_iff in K. destruct K as [K1 K2].
    pose proof (replay_step v s0 k f c l o M R S K1) as Q. unfold run. cbn [fold_left]. destruct (fst (apply v (s0, k) o)) as [s1 k1]. destruct Q as (Q1 & Q2 & -> & Q4 & Q5 & _).
    specialize (IH s1 Q1 Q2 (eq_trans Q5 E) K2). fold (run v (s1, k) r). destruct (run v (s1, k) r) as [s2 k2]. destruct IH as (I1 & I2 & I3 & I4 & I5). repeat split; congruence. }
  specialize (G ops s0 A1 A2 A4 K). fold (run v (s0, k) ops). destruct (run v (s0, k) ops) as [s1 k1]. destruct G as (G1 & G2 & -> & G4 & G5).
  cbn [apply fst snd]. unfold set_campaign. destruct (campaign_dec c' (Some "state"%string)) as [|_]; [contradiction|]. rewrite G5. destruct (campaign_dec c' c) as [|_]; [contradiction|]. rewrite G1. cbn [mode_eqb].
  split; [reflexivity|]. split; [reflexivity|]. split; [reflexivity|]. intros e E F. unfold do_drop. cbn [s_mode s_reading s_counter s_devices]. cbn [mode_eqb]. rewrite G2, (proj2 (drops_in_stored k f c l) S), E.
  rewrite G4, D0. destruct (replayed_fits _ _ F) as (ns & Q & _). rewrite Q. exists ns. reflexivity.
Qed.
Print Assumptions C108_rewind_refuted.
Example C108_rewind_refuted_met : let w := run Generating (new_scenario, blank) (recorded ++ [Replay (Some 7) (camp "a") 1; Drop false dropA]) in
  num_drops (fst w) = 2 /\ snd (apply Generating w (SetCampaign (camp "b"))) = Raise NotImplementedError /\ num_drops (fst (fst (apply Generating w (SetCampaign (camp "b"))))) = 0 /\
  campaign_name_ok (camp "b").
Proof. vm_compute. repeat split. discriminate. Qed.

(** The documentation of [num_drops] promises the number of drops in the replayed file; it is the number of drops replayed or skipped so far. *)
Theorem C108_num_drops_refuted : forall v s k f c n l, stored k f c = Some l -> n < length l ->
  num_drops (fst (run v (s, k) [Replay (Some f) c n])) = n /\ n <> length l.
Proof.
  intros v s k f c n l S L. split; [|lia]. pose proof (C108_replay_starts v s k (Some f) c n f eq_refl) as A. rewrite S in A. unfold run. cbn [fold_left].
  destruct (apply v (s, k) (Replay (Some f) c n)) as [[s0 k0] r0]. destruct A as [_ A]. destruct (Nat.ltb_spec n (length l)) as [_|]; [|lia]. apply A.
Qed.
Print Assumptions C108_num_drops_refuted.
Example C108_num_drops_refuted_met : stored (snd (run Generating (new_scenario, blank) recorded)) 7 (camp "a") = Some [dropA; dropB; dropC].
Proof. reflexivity. Qed.

(** Stopping ends recordings and replays, keeps everything on disk, the devices and the name of the campaign. *)
Theorem C108_stop : forall v s k, reachable v (s, k) ->
  let '((s', k'), r) := apply v (s, k) Stop in
  r = Ok Done /\ k' = k /\ s_mode s' = DEFAULT /\ s_writing s' = None /\ s_reading s' = None /\ num_drops s' = 0 /\ s_devices s' = s_devices s /\ s_campaign s' = s_campaign s.
Proof.
  intros v s k _. cbn [apply fst snd]. pose proof (stop_clears s) as (K1 & K2 & K3 & K4 & K5 & _). unfold num_drops. rewrite K1. repeat split; assumption.
Qed.
Print Assumptions C108_stop.
Example C108_stop_met : reachable Generating after_recorded.
Proof. exact reachable_recorded. Qed.
(** A stopped scenario can record again, appending to the same campaign. *)
Theorem C108_append : forall s k f c ops more, reachable Generating (s, k) -> s_mode s = DEFAULT -> campaign_name_ok c -> stored k f c = None ->
  forallb keeps_recording ops = true -> forallb keeps_recording more = true ->
  stored (snd (run Generating (s, k) (Record f c false :: ops ++ Stop :: Record f c false :: more))) f c = Some (plain_drops ops ++ plain_drops more).
Proof.
  intros s k f c ops more H M C S0 K1 K2. pose proof (C108_recording s k f c false ops H M C K1) as R. cbn zeta in R.
  assert (H2 : reachable Generating (run Generating (s, k) (Record f c false :: ops ++ [Stop]))).
  { destruct H as (k0 & ops0 & E). exists k0, (ops0 ++ Record f c false :: ops ++ [Stop]). unfold run in *. rewrite fold_left_app, <- E. reflexivity. }
  unfold run in *. cbn [fold_left] in *. rewrite fold_left_app in *. cbn [fold_left] in *.
  destruct (fold_left (fun w o => fst (apply Generating w o)) ops (fst (apply Generating (s, k) (Record f c false)))) as [s1 k1]. destruct R as (_ & _ & R & _). rewrite S0 in R. cbn [app] in R.
  pose proof (C108_stop Generating s1 k1) as T. cbn [apply fst snd] in T, H2 |- *. 
  assert (M2 : s_mode (stop s1) = DEFAULT) by apply stop_clears.
  pose proof (C108_recording (stop s1) k1 f c false more H2 M2 C K2) as R2. cbn zeta in R2. unfold run in R2. cbn [apply] in R2.
  destruct (fold_left (fun w o => fst (apply Generating w o)) more (fst (record (stop s1, k1) f c false))) as [s2 k2]. destruct R2 as (_ & _ & R2 & _). cbn [snd]. rewrite R2, R. reflexivity.
Qed.
Print Assumptions C108_append.
Example C108_append_met : stored (snd (run Generating (new_scenario, blank) (Record 7 (camp "a") false :: [Drop false dropA] ++ Stop :: Record 7 (camp "a") false :: [Drop false dropB]))) 7 (camp "a") = Some [dropA; dropB].
Proof. reflexivity. Qed.
