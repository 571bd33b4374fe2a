(** Scenarios, C75 to C77. *)
From Coq Require Import List ZArith Bool Arith Reals Lia Lra.
From Coquelicot Require Import Complex.
From Verif Require Import Base BaseLemmas Cplx Chan_Model Chan_Proofs Net_Model Net_Spec Net_Proofs.
Import ListNotations.
Open Scope nat_scope.

(** ** C75: devices and links *)
(** Devices are registered once and found at their position *)
Theorem C75_devices : forall default w s, reachable default w ->
  NoDup (devices (scn w s)) /\ forall d i, device_index w s d = Ok i <-> nth_error (devices (scn w s)) i = Some d.
Proof.
  intros default w s R. pose proof (good_reachable _ _ R s) as G. split; [apply (g_devices _ G)|]. intros d i. unfold device_index. split; [|apply index_nth, (g_devices _ G)].
  intros E. destruct (in_dec Nat.eq_dec d (devices (scn w s))) as [H|H]; [|rewrite index_fails in E by exact H; discriminate]. destruct (index_spec d _ H) as [k [E1 E2]]. congruence.
Qed.
Print Assumptions C75_devices.
(** A new device takes the next position; everything known about the other devices stays as it was, and the new device's links use the default channel *)
Theorem C75_adding_a_device : forall default w s d w', reachable default w -> add_device w s d = (w', Ok tt) ->
  devices (scn w' s) = devices (scn w s) ++ [d] /\ device_index w' s d = Ok (length (devices (scn w s))) /\
  (forall e i, device_index w s e = Ok i -> device_index w' s e = Ok i) /\
  (forall a b, registered w s a -> registered w s b -> channel w' s a b = channel w s a b) /\
  (forall a, registered w' s a -> channel w' s a d = Ok (default s) /\ channel w' s d a = Ok (default s)) /\
  (forall t, t <> s -> scn w' t = scn w t).
Proof.
  intros default w s d w' R E. pose proof (good_reachable _ _ R s) as G. assert (Df : default_channel (scn w s) = default s) by (destruct R as [l ->]; rewrite default_run; reflexivity).
  destruct (add_device_result w s d) as [R1 [R2 R3]]. destruct (in_dec Nat.eq_dec d (devices (scn w s))) as [F|F]; [rewrite (R1 F) in E; discriminate|]. destruct (modifiable (scn w s)) eqn:M; [|rewrite (R2 F eq_refl) in E; discriminate].
  destruct (R3 F eq_refl) as [w1 [E1 [S1 _]]]. rewrite E in E1. cbn [fst] in E1. subst w1. pose proof (S1 s) as Ss. rewrite Nat.eqb_refl in Ss.
  split; [rewrite Ss; reflexivity|]. split; [|split; [|split; [|split]]].
  - unfold device_index. rewrite Ss. cbn [grown devices]. apply index_nth; [apply (g_devices _ (good_grown _ d G F))|]. rewrite nth_error_app2 by lia. rewrite Nat.sub_diag. reflexivity.
  - intros e i. unfold device_index. rewrite Ss. cbn [grown devices]. apply index_app.
  - intros a b Ha Hb. rewrite !channel_value; try assumption; unfold registered; rewrite Ss; cbn [grown devices links default_channel]; try (apply in_or_app; left; assumption). reflexivity.
  - intros a Ha. rewrite (channel_sym w' s d a). enough (K : channel w' s a d = Ok (default s)) by auto. rewrite channel_value; [|exact Ha|unfold registered; rewrite Ss; apply in_or_app; right; left; reflexivity]. rewrite Ss. cbn [grown links default_channel].
    destruct (lookup (key a d) (links (scn w s))) as [c|] eqn:El; [|rewrite Df; reflexivity]. exfalso. apply lookup_In in El. destruct (g_ends _ G _ _ El) as [x [y [Hx [Hy K]]]]. apply key_same in K. unfold same_link in K. apply F. destruct K as [[_ ->]|[_ ->]]; assumption.
  - intros t Ht. rewrite S1. replace (t =? s) with false by (symmetry; apply Nat.eqb_neq; exact Ht). reflexivity.
Qed.
Print Assumptions C75_adding_a_device.
Theorem C75_rejected_devices : forall w s d,
  (registered w s d -> add_device w s d = (w, Raise ValueError)) /\ (~ registered w s d -> modifiable (scn w s) = false -> add_device w s d = (w, Raise RuntimeError)).
Proof. intros w s d. destruct (add_device_result w s d) as [R1 [R2 _]]. auto. Qed.
Print Assumptions C75_rejected_devices.
(** Adding a device of another scenario raises an error, but leaves the device registered *)
Theorem C75_rejected_device_stays_refuted : ~ forall default w s d e, reachable default w -> snd (add_device w s d) = Raise e -> ~ registered w s d -> ~ registered (fst (add_device w s d)) s d.
Proof. intros H. apply (H (fun s => 100 + s) (run (start (fun s => 100 + s)) [AddDevice 0 7]) 1 7 NotImplementedError); [exists [AddDevice 0 7]; reflexivity|reflexivity|intros []|left; reflexivity]. Qed.
Print Assumptions C75_rejected_device_stays_refuted.
(** Setting a link's channel affects this link, in both directions, and nothing else *)
Theorem C75_setting_a_channel : forall default w s a b c, reachable default w -> registered w s a -> registered w s b -> exists w', set_channel w s a b c = (w', Ok tt) /\
  channel w' s a b = Ok c /\ channel w' s b a = Ok c /\ (forall a' b', ~ same_link a' b' a b -> channel w' s a' b' = channel w s a' b') /\
  devices (scn w' s) = devices (scn w s) /\ forall t, t <> s -> scn w' t = scn w t.
Proof.
  intros default w s a b c R Ha Hb. pose proof (good_reachable _ _ R s) as G. destruct (set_channel_result w s a b c G) as [R1 _]. destruct (R1 Ha Hb) as [w' [E [S1 _]]]. pose proof (S1 s) as Ss. rewrite Nat.eqb_refl in Ss.
  exists w'. split; [exact E|]. rewrite (channel_sym w' s b a). assert (K : channel w' s a b = Ok c) by (rewrite channel_value by (unfold registered; rewrite Ss; assumption); rewrite Ss; cbn [relinked links]; rewrite lookup_update_same; reflexivity).
  split; [exact K|]. split; [exact K|]. split; [|split; [rewrite Ss; reflexivity|]].
  - intros a' b' N. unfold channel. rewrite Ss. cbn [relinked devices links default_channel]. rewrite lookup_update_other; [reflexivity|]. intros F. apply key_same in F. exact (N F).
  - intros t Ht. rewrite S1. replace (t =? s) with false by (symmetry; apply Nat.eqb_neq; exact Ht). reflexivity.
Qed.
Print Assumptions C75_setting_a_channel.
Theorem C75_unknown_devices : forall default w s a b c, reachable default w -> ~ (registered w s a /\ registered w s b) ->
  set_channel w s a b c = (w, Raise ValueError) /\ channel w s a b = Raise ValueError.
Proof. intros default w s a b c R H. destruct (set_channel_result w s a b c (good_reachable _ _ R s)) as [_ R2]. split; [apply R2; exact H|apply channel_fails; exact H]. Qed.
Print Assumptions C75_unknown_devices.
(** Links never assigned use the default channel; changes of the mode do not matter *)
Theorem C75_default_channel : forall default s a b l, (forall a' b' c, In (SetChannel s a' b' c) l -> ~ same_link a' b' a b) ->
  let w := run (start default) l in registered w s a -> registered w s b -> channel w s a b = Ok (default s).
Proof.
  intros default s a b l H w Ha Hb. rewrite channel_value by assumption. subst w.
  enough (K : lookup (key a b) (links (scn (run (start default) l) s)) = None) by (rewrite K, default_run; reflexivity). clear Ha Hb. induction l as [|o l IH] using rev_ind; [reflexivity|].
  rewrite run_snoc. assert (I : lookup (key a b) (links (scn (run (start default) l) s)) = None) by (apply IH; intros a' b' c F; apply (H a' b' c), in_or_app; left; exact F). set (w := run (start default) l) in *. assert (G : forall s, good (scn w s)) by (apply good_reachable with default; exists l; reflexivity).
  destruct o as [t d|t x y c|t m]; cbn [step].
  - destruct (add_device_result w t d) as [R1 [R2 R3]]. destruct (in_dec Nat.eq_dec d (devices (scn w t))) as [F|F]; [rewrite (R1 F); exact I|]. destruct (modifiable (scn w t)) eqn:M; [|rewrite (R2 F eq_refl); exact I].
    destruct (R3 F eq_refl) as [w' [-> [E _]]]. rewrite E. destruct (Nat.eqb_spec s t) as [->|_]; exact I.
  - destruct (set_channel_result w t x y c (G t)) as [R1 R2]. destruct (in_dec Nat.eq_dec x (devices (scn w t))) as [Ha|Ha]; [destruct (in_dec Nat.eq_dec y (devices (scn w t))) as [Hb|Hb]|]; [|rewrite R2 by (intros [_ F]; exact (Hb F)); exact I|rewrite R2 by (intros [F _]; exact (Ha F)); exact I].
    destruct (R1 Ha Hb) as [w' [-> [E _]]]. cbn [fst]. rewrite E. destruct (Nat.eqb_spec s t) as [->|_]; [|exact I]. cbn [relinked links]. rewrite lookup_update_other; [exact I|]. intros F. apply key_same in F.
    apply (H x y c); [apply in_or_app; right; left; reflexivity|]. unfold same_link in *. destruct F as [[-> ->]|[-> ->]]; auto.
  - unfold set_mode. cbn [fst]. rewrite scn_put. destruct (Nat.eqb_spec s t) as [->|_]; exact I.
Qed.
Print Assumptions C75_default_channel.
(** The channels of a device are those of its links with all devices, itself included *)
Theorem C75_channels_of_a_device : forall default w s d active, reachable default w -> registered w s d ->
  exists cs, device_channels w active s d false = Ok cs /\ forall c, In c cs <-> exists b, registered w s b /\ channel w s d b = Ok c.
Proof. intros default w s d active R H. apply device_channels_all; [apply (good_reachable _ _ R)|exact H]. Qed.
Print Assumptions C75_channels_of_a_device.
(** Restricted to active channels, the default channel may appear although it is inactive and not used by any of the device's links *)
Theorem C75_active_channels_refuted : ~ forall default w s d active cs, reachable default w -> registered w s d -> device_channels w active s d true = Ok cs ->
  forall c, In c cs -> active c = true /\ exists b, registered w s b /\ channel w s d b = Ok c.
Proof.
  intros H. pose (l := [AddDevice 0 7; SetChannel 0 7 7 3]). destruct (H (fun _ => 9) (run (start (fun _ => 9)) l) 0 7 (fun _ => false) [9] (ex_intro _ l eq_refl) (or_introl eq_refl) eq_refl 9 (or_introl eq_refl)) as [K _]. discriminate.
Qed.
Print Assumptions C75_active_channels_refuted.
(** Three devices, two explicit links, one replaced *)
Definition example_calls : list op := [AddDevice 0 7; AddDevice 0 8; SetChannel 0 8 7 3; AddDevice 0 9; SetChannel 0 9 9 4; SetChannel 0 7 8 5; SetChannel 1 7 8 6; AddDevice 0 7; SetMode 0 false; AddDevice 0 10].
Example C75_met : let w := run (start (fun s => 100 + s)) example_calls in
  devices (scn w 0) = [7; 8; 9] /\ channel w 0 7 8 = Ok 5 /\ channel w 0 8 7 = Ok 5 /\ channel w 0 9 9 = Ok 4 /\ channel w 0 7 9 = Ok 100 /\ channels (scn w 0) = [100; 4; 5] /\
  snd (set_channel w 1 7 8 6) = Raise ValueError /\ snd (add_device w 0 10) = Raise RuntimeError /\ device_index w 0 9 = Ok 2.
Proof. vm_compute. repeat split; reflexivity. Qed.

(** ** C76: channels and propagation *)
(** The list of channels has no duplicates, and holds channels in use or the default channel only *)
Theorem C76_channels : forall default w s, reachable default w ->
  NoDup (channels (scn w s)) /\ (forall c, In c (channels (scn w s)) -> c = default s \/ exists a b, registered w s a /\ registered w s b /\ channel w s a b = Ok c) /\
  (forall a b c, channel w s a b = Ok c -> c <> default s -> In c (channels (scn w s))).
Proof.
  intros default w s R. pose proof (good_reachable _ _ R s) as G. assert (Df : default_channel (scn w s) = default s) by (destruct R as [l ->]; rewrite default_run; reflexivity). split; [apply (g_channels _ G)|]. split.
  - intros c Hc. destruct (g_used _ G c Hc) as [->|H]; [left; exact Df|right]. apply in_map_iff in H as [[k c'] [E H]]. cbn [snd] in E. subst c'. destruct (g_ends _ G _ _ H) as [a [b [Ha [Hb ->]]]]. exists a, b. split; [exact Ha|]. split; [exact Hb|].
    rewrite channel_value by assumption. rewrite (In_lookup _ _ _ (g_keys _ G) H). reflexivity.
  - intros a b c E N. unfold channel in E. destruct (negb _); [discriminate|]. destruct (negb _); [discriminate|]. injection E as E. destruct (lookup (key a b) (links (scn w s))) as [c'|] eqn:El; [subst c'|congruence].
    apply (g_linked _ G), in_map_iff. exists (key a b, c). split; [reflexivity|apply lookup_In; exact El].
Qed.
Print Assumptions C76_channels.
(** All channels in use are listed, if the default channel is never assigned to a link explicitly *)
Theorem C76_channels_in_use : forall default s l a b c, default_only_by_default default s l -> channel (run (start default) l) s a b = Ok c -> In c (channels (scn (run (start default) l) s)).
Proof.
  intros default s l a b c H E. destruct (Nat.eq_dec c (default s)) as [->|N]; [apply (default_listed default s l H)|]. apply (C76_channels default (run (start default) l) s (ex_intro _ l eq_refl)) with (a := a) (b := b); assumption.
Qed.
Print Assumptions C76_channels_in_use.
(** Otherwise replacing it removes it from the list although other links still use it, and propagation fails *)
Theorem C76_channels_in_use_refuted : ~ forall default w s a b c, reachable default w -> channel w s a b = Ok c -> In c (channels (scn w s)).
Proof.
  intros H. pose (l := [AddDevice 0 7; AddDevice 0 8; SetChannel 0 7 8 100; SetChannel 0 7 8 5]). pose proof (H (fun s => 100 + s) (run (start (fun s => 100 + s)) l) 0 7 7 100 (ex_intro _ l eq_refl) eq_refl) as K.
  vm_compute in K. destruct K as [K|[]]. discriminate.
Qed.
Print Assumptions C76_channels_in_use_refuted.
Section Matrix.
Context {Sig Smp State Rea : Type}.
Context (sample : Rea -> State -> State -> Smp) (reciprocal : Rea -> Smp -> State -> State -> Smp) (propagate : Smp -> Sig -> Sig * Sig).
(** Propagating the transmissions tx of all devices: device i receives from device j what the realization of their link's channel makes of
    the unchanged transmission of device j; the sample of the link with j before i is derived from the one with i before j *)
Theorem C76_propagation : (forall smp x, snd (propagate smp x) = x) -> forall default s l rea st tx, default_only_by_default default s l ->
  let w := run (start default) l in let n := length (devices (scn w s)) in
  exists m tx', propagate_all sample reciprocal propagate n (link_of w s) rea st tx = Ok (m, tx') /\ (forall k, tx' k = tx k) /\
  (forall i j d e, nth_error (devices (scn w s)) i = Some d -> nth_error (devices (scn w s)) j = Some e -> exists c k, channel w s d e = Ok c /\ nth_error (channels (scn w s)) k = Some c /\
     m i j = Some (fst (propagate (if Nat.leb i j then sample (rea k) (st j) (st i) else reciprocal (rea k) (sample (rea k) (st i) (st j)) (st j) (st i)) (tx j)))) /\
  (forall i j, n <= i \/ n <= j -> m i j = None).
Proof.
  intros pure default s l rea st tx H w n. assert (G : good (scn w s)) by (apply good_reachable with default; exists l; reflexivity).
  assert (K : forall i j d e, nth_error (devices (scn w s)) i = Some d -> nth_error (devices (scn w s)) j = Some e -> exists c k, channel w s d e = Ok c /\ nth_error (channels (scn w s)) k = Some c /\ link_of w s i j = Ok k).
  { intros i j d e Ei Ej. assert (Hd : registered w s d) by (apply (nth_error_In _ i); exact Ei). assert (He : registered w s e) by (apply (nth_error_In _ j); exact Ej).
    pose proof (channel_value w s d e Hd He) as E. eexists. pose proof (C76_channels_in_use default s l d e _ H E) as I. destruct (index_spec _ _ I) as [k [E1 E2]]. exists k. split; [exact E|]. split; [exact E2|]. unfold link_of. rewrite Ei, Ej, E. cbn [bind]. exact E1. }
  assert (P : forall a b, b <= a < n -> exists k, link_of w s a b = Ok k).
  { intros a b Hab. destruct (nth_error (devices (scn w s)) a) as [d|] eqn:Ea; [|apply nth_error_None in Ea; unfold n in Hab; lia]. destruct (nth_error (devices (scn w s)) b) as [e|] eqn:Eb; [|apply nth_error_None in Eb; unfold n in Hab; lia].
    destruct (K a b d e Ea Eb) as [c [k [_ [_ E]]]]. exists k. exact E. }
  destruct (propagate_all_spec sample reciprocal propagate pure n (link_of w s) rea st tx (fun a b => match link_of w s a b with Ok k => k | Raise _ => 0 end)) as [m [tx' [E [T [M1 M2]]]]].
  { intros a b Hab. destruct (P a b Hab) as [k ->]. reflexivity. }
  exists m, tx'. split; [exact E|]. split; [exact T|]. split; [|exact M2]. intros i j d e Ei Ej.
  assert (Hi : i < n) by (apply nth_error_Some; rewrite Ei; discriminate). assert (Hj : j < n) by (apply nth_error_Some; rewrite Ej; discriminate).
  rewrite M1 by assumption. unfold entry. destruct (le_lt_dec i j) as [L|L].
  - replace (Nat.max i j) with j by lia. replace (Nat.min i j) with i by lia. destruct (K j i e d Ej Ei) as [c [k [E1 [E2 E3]]]]. exists c, k. rewrite channel_sym. rewrite E3. auto.
  - replace (Nat.max i j) with i by lia. replace (Nat.min i j) with j by lia. destruct (K i j d e Ei Ej) as [c [k [E1 [E2 E3]]]]. exists c, k. rewrite E3. auto.
Qed.
End Matrix.
Print Assumptions C76_propagation.
(** Propagation fails as soon as one link's channel is missing from the list *)
Theorem C76_propagation_with_a_replaced_default_channel : forall {Sig Smp State Rea} (sample : Rea -> State -> State -> Smp) reciprocal (propagate : Smp -> Sig -> Sig * Sig) w s rea st tx a b c,
  registered w s a -> registered w s b -> channel w s a b = Ok c -> ~ In c (channels (scn w s)) -> exists e, propagate_all sample reciprocal propagate (length (devices (scn w s))) (link_of w s) rea st tx = Raise e.
Proof.
  intros Sig Smp State Rea sample reciprocal propagate w s rea st tx a b c Ha Hb E N.
  destruct (propagate_all_raises sample reciprocal propagate (length (devices (scn w s))) (link_of w s) rea st tx) as [F|F]; [|exact F]. exfalso. apply In_nth_error in Ha as [i Hi], Hb as [j Hj].
  assert (Li : i < length (devices (scn w s))) by (apply nth_error_Some; rewrite Hi; discriminate). assert (Lj : j < length (devices (scn w s))) by (apply nth_error_Some; rewrite Hj; discriminate).
  destruct (le_lt_dec j i) as [L|L].
  - destruct (F i j ltac:(lia)) as [k K]. unfold link_of in K. rewrite Hi, Hj, E in K. cbn [bind] in K. rewrite index_fails in K by exact N. discriminate.
  - destruct (F j i ltac:(lia)) as [k K]. unfold link_of in K. rewrite Hi, Hj, channel_sym, E in K. cbn [bind] in K. rewrite index_fails in K by exact N. discriminate.
Qed.
Print Assumptions C76_propagation_with_a_replaced_default_channel.
(** The devices and channels of the example above; samples are numbers, propagation multiplies by them *)
Example C76_met : let w := run (start (fun s => 100 + s)) example_calls in
  default_only_by_default (fun s => 100 + s) 0 example_calls /\
  exists m tx, propagate_all (fun r (_ _ : nat) => r) (fun r _ _ _ => 1000 + r) (fun k x => (k * x, x)) 3 (link_of w 0) (fun k => nth k (channels (scn w 0)) 0) (fun k => k) (fun k => S k) = Ok (m, tx) /\
  m 0 1 = Some (5 * 2) /\ m 1 0 = Some (1005 * 1) /\ m 2 2 = Some (4 * 3) /\ m 2 1 = Some (1100 * 2).
Proof.
  split; [intros a b H; cbn in H; repeat (destruct H as [H|H]; [discriminate|]); exact H|]. eexists. eexists. split; [reflexivity|]. vm_compute. repeat split; reflexivity.
Qed.
(** Ideal channels with as many receiving as transmitting antennas scale the transmitted signal in place, so that a transmission received
    twice over the same lossy channel is not the same *)
Theorem C76_propagation_over_ideal_channels_refuted : ~ forall (tx : nat -> blk) m tx',
  propagate_all (fun r (_ _ : nat) => r) (fun r _ _ _ => r) (fun gain s => ideal_propagate gain 2 2 s) 2 (fun _ _ => Ok 0) (fun _ => 4%R) (fun k => k) tx = Ok (m, tx') ->
  forall y z, m 0 0 = Some y -> m 1 0 = Some z -> x y 0 0 = x z 0 0.
Proof.
  intros H. pose (s := Blk 2 1 0 (fun _ _ => RtoC 1)).
  pose proof (H (fun _ => s) _ _ eq_refl _ _ eq_refl eq_refl) as K. cbn -[sqrt] in K. replace 4%R with (2 * 2)%R in K by ring. rewrite sqrt_square in K by lra. rewrite <- !RtoC_mult in K. apply RtoC_inj in K. lra.
Qed.
Print Assumptions C76_propagation_over_ideal_channels_refuted.
(** Explicitly linked channels belong to their scenario, and draw their random numbers from its seed *)
Theorem C76_explicit_channels_belong_to_the_scenario : forall default s l c, (forall t a b, In (SetChannel t a b c) l -> t = s) -> c <> default s ->
  In c (channels (scn (run (start default) l) s)) -> assigned (run (start default) l) c = Some s.
Proof.
  intros default s l c. induction l as [|o l IH] using rev_ind; intros H N I; [cbn in I; destruct I as [I|[]]; congruence|].
  rewrite run_snoc in *. assert (H' : forall t a b, In (SetChannel t a b c) l -> t = s) by (intros t a b F; apply (H t a b), in_or_app; left; exact F). specialize (IH H' N). set (w := run (start default) l) in *. assert (G : forall s, good (scn w s)) by (apply good_reachable with default; exists l; reflexivity).
  destruct o as [t d|t a b e|t m]; cbn [step] in *.
  - destruct (add_device_result w t d) as [R1 [R2 R3]]. destruct (in_dec Nat.eq_dec d (devices (scn w t))) as [F|F]; [rewrite (R1 F) in *; apply IH, I|]. destruct (modifiable (scn w t)) eqn:M; [|rewrite (R2 F eq_refl) in *; apply IH, I].
    destruct (R3 F eq_refl) as [w' [E0 [E [E' _]]]]. rewrite E0, ?E, E' in *. apply IH. destruct (Nat.eqb_spec s t) as [->|_]; exact I.
  - destruct (set_channel_result w t a b e (G t)) as [R1 R2]. destruct (in_dec Nat.eq_dec a (devices (scn w t))) as [Ha|Ha]; [destruct (in_dec Nat.eq_dec b (devices (scn w t))) as [Hb|Hb]|]; [|rewrite R2 in * by (intros [_ F]; exact (Hb F)); apply IH, I|rewrite R2 in * by (intros [F _]; exact (Ha F)); apply IH, I].
    destruct (R1 Ha Hb) as [w' [E0 [E [_ A]]]]. rewrite E0 in *. cbn [fst] in *. rewrite A. rewrite E in I. clear R1 R2 E0 A.
    set (ch := match lookup (key a b) (links (scn w t)) with Some o => if mem o (map snd (update (key a b) e (links (scn w t)))) then channels (scn w t) else remove_first o (channels (scn w t)) | None => channels (scn w t) end) in *.
    assert (Hch : forall q, In q ch -> In q (channels (scn w t))).
    { intros q. unfold ch. destruct (lookup _ _) as [o|]; [|auto]. destruct (mem o _); [auto|]. intros F. apply remove_In in F; [tauto|apply (g_channels _ (G t))]. }
    destruct (Nat.eqb_spec c e) as [->|Nc]; cbn [andb].
    + assert (t = s) by (apply (H t a b), in_or_app; right; left; reflexivity). subst t. destruct (mem e ch) eqn:Em; cbn [negb]; [|reflexivity]. apply IH, Hch, mem_In. exact Em.
    + apply IH. destruct (Nat.eqb_spec s t) as [->|_]; [|exact I]. unfold relinked in I. cbv zeta in I. cbn [channels] in I. change (In c (if mem e ch then ch else ch ++ [e])) in I.
      apply Hch. destruct (mem e ch); [exact I|]. apply in_app_or in I as [I|[I|[]]]; [exact I|congruence].
  - unfold set_mode in *. cbn [fst] in *. rewrite scn_put in I. apply IH. destruct (Nat.eqb_spec s t) as [->|_]; exact I.
Qed.
Print Assumptions C76_explicit_channels_belong_to_the_scenario.
(** The default channel does not: it is used by links, but not assigned to the scenario *)
Theorem C76_all_channels_belong_to_the_scenario_refuted : ~ forall default w s a b c, (forall t, t <> s -> devices (scn w t) = []) -> reachable default w -> channel w s a b = Ok c -> assigned w c = Some s.
Proof.
  intros H. pose (l := [AddDevice 0 7]). assert (K : assigned (run (start (fun s => 100 + s)) l) 100 = Some 0) by (apply (H (fun s => 100 + s) _ 0 7 7 100); [intros t Ht; destruct t; [congruence|reflexivity]|exists l; reflexivity|reflexivity]). discriminate.
Qed.
Print Assumptions C76_all_channels_belong_to_the_scenario_refuted.

(** ** C77: triggers *)
(** A device is listed by a trigger model if and only if it is the device's trigger model, however models are assigned *)
Theorem C77_trigger_groups : forall own ds l, Forall (fun o => concerns ds o /\ forall t d, o <> RemoveFrom t d) l -> consistent ds (fold_left trigger_step l (alone own ds)).
Proof. intros own ds l H. apply run_consistent; [apply alone_consistent|exact H]. Qed.
Print Assumptions C77_trigger_groups.
(** The last assignment counts *)
Theorem C77_assigned_trigger : forall g d t, model (set_model g d t) d = t /\ model (add_to g t d) d = t /\ (forall e, e <> d -> model (set_model g d t) e = model g e /\ model (add_to g t d) e = model g e).
Proof.
  intros g d t. unfold add_to. cbn. rewrite Nat.eqb_refl. split; [reflexivity|]. split; [destruct (Nat.eqb_spec (model g d) t) as [E|N]; [exact E|cbn; rewrite Nat.eqb_refl; reflexivity]|].
  intros e He. apply Nat.eqb_neq in He. rewrite He. split; [reflexivity|]. destruct (Nat.eqb (model g d) t); [reflexivity|]. cbn. rewrite He. reflexivity.
Qed.
Print Assumptions C77_assigned_trigger.
(** Removing a device from a trigger model does not take the model away from the device *)
Theorem C77_removed_device_refuted : ~ forall own ds l, Forall (concerns ds) l -> consistent ds (fold_left trigger_step l (alone own ds)).
Proof.
  intros H. destruct (H (fun d => d) [7] [RemoveFrom 7 7] ltac:(repeat constructor) 7 7 (or_introl eq_refl)) as [_ K]. specialize (K eq_refl). vm_compute in K. exact K.
Qed.
Print Assumptions C77_removed_device_refuted.
Example C77_groups_met : let g := fold_left trigger_step [SetModel 1 20; AddTo 20 2; SetModel 3 20; AddTo 30 3] (alone (fun d => d) [1; 2; 3]) in
  Forall (fun o => concerns [1; 2; 3] o /\ forall t d, o <> RemoveFrom t d) [SetModel 1 20; AddTo 20 2; SetModel 3 20; AddTo 30 3] /\ members g 20 = [2; 1] /\ members g 30 = [3] /\ members g 1 = [] /\ model g 3 = 30.
Proof. split; [repeat constructor; cbn; auto; discriminate|]. vm_compute. repeat split; reflexivity. Qed.
(** One realization for each trigger model: devices of the same model share it, each model is realized once *)
Theorem C77_trigger_realizations : forall {A} (realize : nat -> nat -> A) trigger ds, exists order,
  NoDup order /\ (forall t, In t order <-> exists d, In d ds /\ trigger d = t) /\
  Forall2 (fun d v => exists i, nth_error order i = Some (trigger d) /\ v = realize i (trigger d)) ds (realize_triggers realize trigger ds []).
Proof.
  intros A realize trigger ds.
  assert (K : forall ds seen, NoDup (map fst seen) -> (forall i t v, nth_error seen i = Some (t, v) -> v = realize i t) -> exists more,
    NoDup (map fst seen ++ more) /\ (forall t, In t (map fst seen ++ more) <-> In t (map fst seen) \/ exists d, In d ds /\ trigger d = t) /\
    Forall2 (fun d v => exists i, nth_error (map fst seen ++ more) i = Some (trigger d) /\ v = realize i (trigger d)) ds (realize_triggers realize trigger ds seen)).
  { clear ds. induction ds as [|d ds IH]; intros seen N V; cbn [realize_triggers].
    - exists []. rewrite app_nil_r. split; [exact N|]. split; [|constructor]. intros t. split; [auto|]. intros [F|[e [[] _]]]. exact F.
    - destruct (find (fun e => trigger d =? fst e) seen) as [[t v]|] eqn:E.
      + pose proof (find_some _ _ E) as [Hin Ht]. cbn [fst] in Ht. apply Nat.eqb_eq in Ht. subst t. destruct (IH seen N V) as [more [M1 [M2 M3]]]. exists more. split; [exact M1|]. split.
        * intros t. rewrite M2. split; [intros [F|[e [F G]]]; [auto|right; exists e; split; [right; exact F|exact G]]|]. intros [F|[e [[<-|F] G]]]; [auto|left; rewrite <- G; apply in_map_iff; exists (trigger d, v); auto|right; exists e; auto].
        * cbn [snd]. constructor; [|exact M3]. apply In_nth_error in Hin as [i Hi]. exists i. split; [|apply (V i _ _ Hi)]. rewrite nth_error_app1 by (rewrite map_length; apply nth_error_Some; rewrite Hi; discriminate). rewrite nth_error_map, Hi. reflexivity.
      + assert (Nt : ~ In (trigger d) (map fst seen)).
        { intros F. apply in_map_iff in F as [e [E1 E2]]. pose proof (find_none _ _ E e E2) as G. cbn beta in G. rewrite E1, Nat.eqb_refl in G. discriminate. }
        destruct (IH (seen ++ [(trigger d, realize (length seen) (trigger d))])) as [more [M1 [M2 M3]]].
        * rewrite map_app. cbn [map fst]. apply NoDup_snoc; assumption.
        * intros i t v F. destruct (le_lt_dec (length seen) i) as [L|L].
          -- rewrite nth_error_app2 in F by exact L. destruct (i - length seen) as [|q] eqn:Eq; [|destruct q; discriminate]. cbn in F. injection F as <- <-. replace i with (length seen) by lia. reflexivity.
          -- rewrite nth_error_app1 in F by exact L. apply (V i t v F).
        * rewrite map_app in M1, M2, M3. cbn [map fst] in M1, M2, M3. rewrite <- app_assoc in M1, M3. cbn [app] in M1, M3. exists (trigger d :: more). split; [exact M1|]. split.
          -- intros t. specialize (M2 t). rewrite <- app_assoc in M2. cbn [app] in M2. rewrite M2, in_app_iff. cbn [In]. split.
             ++ intros [[F|[F|[]]]|[e [F G]]]; [auto|right; exists d; auto|right; exists e; auto].
             ++ intros [F|[e [[<-|F] G]]]; [auto|auto|right; exists e; auto].
          -- constructor; [|exact M3]. exists (length seen). split; [|reflexivity]. rewrite nth_error_app2 by (rewrite map_length; lia). rewrite map_length, Nat.sub_diag. reflexivity. }
  destruct (K ds [] (NoDup_nil _)) as [order [O1 [O2 O3]]]; [intros i t v F; destruct i; discriminate|]. cbn [map app] in *. exists order. split; [exact O1|]. split; [|exact O3]. intros t. rewrite O2. split; [intros [[]|F]; exact F|auto].
Qed.
Print Assumptions C77_trigger_realizations.
Example C77_realizations_met : realize_triggers (fun n t => (n, t)) (fun d => nth d [5; 6; 5; 7; 6] 0) [0; 1; 2; 3; 4] [] = [(0, 5); (1, 6); (0, 5); (2, 7); (1, 6)].
Proof. reflexivity. Qed.
(** Offsets: non-negative numbers of samples at positive rates, converted to other rates by rounding down *)
Open Scope R_scope.
Theorem C77_offsets : forall n rate t r, trigger_realization n rate = Ok t -> 0 < r ->
  t = (n, rate) /\ (0 <= n)%Z /\ 0 < rate /\
  exists k, offset_samples t r 0 = Ok k /\ (0 <= k)%Z /\ IZR k <= IZR n / rate * r < IZR k + 1.
Proof.
  intros n rate t r E Hr. unfold trigger_realization in E. destruct (Z.ltb_spec n 0) as [|Hn]; [discriminate|]. destruct (Rle_dec rate 0) as [|Hrate]; [discriminate|]. injection E as <-. apply Rnot_le_lt in Hrate.
  split; [reflexivity|]. split; [exact Hn|]. split; [exact Hrate|]. unfold offset_samples. destruct (Rle_dec r 0) as [F|_]; [lra|]. eexists. split; [reflexivity|].
  unfold trigger_delay, truncate. cbn [fst snd]. rewrite Rminus_0_r. assert (P : 0 <= IZR n / rate * r).
  { apply Rmult_le_pos; [|lra]. apply Rmult_le_pos; [apply IZR_le; exact Hn|left; apply Rinv_0_lt_compat; exact Hrate]. }
  destruct (Rle_dec 0 (IZR n / rate * r)) as [_|F]; [|contradiction]. pose proof (base_Int_part (IZR n / rate * r)) as [B1 B2].
  split; [|lra]. assert (Q : (-1 < Int_part (IZR n / rate * r))%Z) by (apply lt_IZR; lra). lia.
Qed.
Print Assumptions C77_offsets.
Theorem C77_rejected_offsets : forall n rate, (n < 0)%Z \/ rate <= 0 -> trigger_realization n rate = Raise ValueError.
Proof. intros n rate H. unfold trigger_realization. destruct (Z.ltb_spec n 0); [reflexivity|]. destruct (Rle_dec rate 0); [reflexivity|]. destruct H; [lia|contradiction]. Qed.
Print Assumptions C77_rejected_offsets.
(** In exact arithmetic the number of samples at the original rate is the realized one *)
Theorem C77_offset_at_the_original_rate : forall n rate t, trigger_realization n rate = Ok t -> offset_samples t rate 0 = Ok n.
Proof.
  intros n rate t E. assert (Hr : 0 < rate) by (unfold trigger_realization in E; destruct (Z.ltb n 0); [discriminate|]; destruct (Rle_dec rate 0) as [|N]; [discriminate|apply Rnot_le_lt; exact N]).
  destruct (C77_offsets n rate t rate E Hr) as [_ [_ [_ [k [K1 [_ K2]]]]]]. rewrite K1. f_equal. replace (IZR n / rate * rate) with (IZR n) in K2 by (field; lra). destruct K2 as [A B]. apply le_IZR in A. rewrite <- (plus_IZR k 1) in B. apply lt_IZR in B. lia.
Qed.
Print Assumptions C77_offset_at_the_original_rate.
Example C77_offsets_met : trigger_realization 3 100 = Ok (3%Z, 100).
Proof. unfold trigger_realization. cbn [Z.ltb Z.compare]. destruct (Rle_dec 100 0); [lra|reflexivity]. Qed.
(** In double precision it may be one less, for example 2 instead of 3 samples at 100 MHz *)
Theorem C77_offset_in_double_precision_refuted : ~ forall n rate, (0 <= n)%Z -> (0 < rate)%Z -> f64_offset_samples n rate rate = n.
Proof. intros H. specialize (H 3%Z 100000000%Z ltac:(lia) ltac:(lia)). vm_compute in H. discriminate. Qed.
Print Assumptions C77_offset_in_double_precision_refuted.
