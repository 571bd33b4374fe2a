(** C114: physical devices. *)
From Coq Require Import List Arith ZArith Bool Lia.
From Verif Require Import Base BaseLemmas Phy_Model Phy_Spec Phy_Proofs.
Import ListNotations.
Local Open Scope nat_scope.

(** A device with one port sampling at 10 Hz around 100 Hz whose leakage removal subtracts the upload and whose calibration doubles *)
Definition rows_minus (a b : list (list Z)) : list (list Z) := map (fun p => map (fun q => (fst q - snd q)%Z) (combine (fst p) (snd p))) (combine a b).
Definition zrt : routines Z nat :=
  Routines (fun s _ => s_streams s) (fun _ _ s => s_streams s) (fun s => s) (fun s => s) (fun _ _ x => map (map (fun a => a / 2)%Z) x)
    (fun u r => match s_streams u with [[]] => r | _ => Sig (s_rate r) (s_carrier r) (rows_minus (s_streams r) (s_streams u)) end)
    (weigh Z.mul [2%Z]) (fun s => num_samples s).
Definition zset : settings := Settings 10 100 1 1 [None; Some [0]] false false 0.
Definition zsig (l : list Z) : signal Z := Sig 10 100 [l].
Definition zdev : device (signal Z * signal Z) Z nat := Device zset (zsig [], zsig []) None None.
Notation zrun := (run Z nat (signal Z * signal Z) 0%Z Z.add (loop_hardware Z) zrt).
Notation zrecv := (receive Z nat (signal Z * signal Z) Z.add (loop_hardware Z) zrt).

(** After any history of calls of a device that receives what it sends, its memories are those described by [memories], a unique state determined by what the calls returned, and
    the signal it takes its leakage to come from is the last one transmitted by an operator *)
Theorem C114_history : forall A P (zero : A) add (rt : routines A P) (d d' : device (signal A * signal A) A P) ks l,
  run A P _ zero add (loop_hardware A) rt d ks = (d', l) ->
  map fst l = ks /\ recent_upload d' = last_transmission A P (recent_upload d) l /\
  forall m, memories A P zero (d_settings d) (correct_transmission rt) (d_hw d) l m <-> m = d_hw d'.
Proof.
  intros A P zero add rt d d' ks l E. destruct (run_loop A P zero add rt ks d d' l E) as (M1&M2&_&M4).
  split; [exact M4|]. split; [exact M2|]. intros m. split.
  - intros M3. symmetry. exact (memories_unique A P zero add _ _ _ _ _ M1 _ M3).
  - intros ->. exact M1.
Qed.
Print Assumptions C114_history.
Example C114_history_met : exists d l, zrun zdev [CTransmit Z [zsig [1; 2]%Z]; CTrigger Z; CTransmit Z [zsig [3; 4]%Z]] = (d, l) /\
  d_hw d = (zsig [3; 4]%Z, zsig [1; 2]%Z) /\ recent_upload d = Some (zsig [3; 4]%Z).
Proof. eexists; eexists; split; [reflexivity|split; reflexivity]. Qed.

(** Receiving after any history hands every receiver its ports of the decoded content of the receive memory, after the removal of the leakage of the last transmission;
    a content whose number of streams or rate differs from the device's raises a ValueError *)
Theorem C114_received : forall A P (zero : A) add (rt : routines A P) (d d' : device (signal A * signal A) A P) ks l m,
  run A P _ zero add (loop_hardware A) rt d ks = (d', l) ->
  memories A P zero (d_settings d) (correct_transmission rt) (d_hw d) l m ->
  let s := snd m in
  let c := d_settings d in
  let t := match last_transmission A P (recent_upload d) l with Some u => u | None => Sig (s_rate s) (s_carrier s) (repeat [] (num_streams s)) end in
  let r := remove_leakage rt t s in
  (num_streams s <> d_rx c \/ s_rate s <> d_rate c -> receive A P _ add (loop_hardware A) rt d' Nothing = Raise ValueError) /\
  (num_streams s = d_rx c -> s_rate s = d_rate c -> num_streams r = d_rx c ->
   List.Forall (fun p => ports_exist p (num_streams (decode rt r))) (d_receivers c) ->
   exists xs, receive A P _ add (loop_hardware A) rt d' Nothing = Ok (Processed [r] xs) /\ Forall2 (fun p x => handed A p (decode rt r) x) (d_receivers c) xs).
Proof.
  intros A P zero add rt d d' ks l m E Hm s c t r.
  destruct (run_loop A P zero add rt ks d d' l E) as (M1&M2&(F1&_&_&F4&F5)&_).
  pose proof (memories_unique A P zero add _ _ _ _ _ Hm _ M1) as Em.
  assert (Es : snd (d_hw d') = s) by (unfold s; rewrite Em; reflexivity).
  unfold receive. cbn [loop_hardware hw_download bind]. rewrite Es. unfold c in *. rewrite <- F1, <- F4, <- F5. split.
  - apply process_refuses.
  - intros E1 E2 E3 E4.
    assert (Er : remove_leakage rt (uploaded_or_empty A (recent_upload d') s) s = r) by (unfold r, t; rewrite M2; reflexivity).
    rewrite <- Er in *. apply process_one; assumption.
Qed.
Print Assumptions C114_received.
Example C114_received_met : let ks := [CTransmit Z [zsig [1; 2]%Z]; CTrigger Z] in
  let d := fst (zrun zdev ks) in
  memories Z nat 0%Z zset (correct_transmission zrt) (d_hw zdev) (snd (zrun zdev ks)) (d_hw d) /\
  zrecv d Nothing = Ok (Processed [zsig [0; 0]%Z] [zsig [0; 0]%Z; zsig [0; 0]%Z]).
Proof.
  cbv zeta. split; [|vm_compute; reflexivity].
  apply (proj2 (proj2 (proj2 (C114_history Z nat 0%Z Z.add zrt zdev _ _ _ (surjective_pairing _))) _)). reflexivity.
Qed.

(** A call that raises leaves such a device as it was, settings included *)
Theorem C114_refused : forall A P (zero : A) add (rt : routines A P) (d d' : device (signal A * signal A) A P) k a,
  step A P _ zero add (loop_hardware A) rt d k = (d', a) -> refused A P a -> d' = d.
Proof. intros A P zero add rt d d' k a E R. exact (proj1 (step_loop A P zero add rt d d' k a E) R). Qed.
Print Assumptions C114_refused.
Example C114_refused_met : step Z nat _ 0%Z Z.add (loop_hardware Z) zrt zdev (CDirect Z (Sig 20 100 [[1%Z]]) true) = (zdev, ASignal Z nat (Raise ValueError)).
Proof. reflexivity. Qed.

(** Playing a signal directly succeeds exactly if its carrier and rate are the device's and the calibration accepts it. A device that receives what it sends returns
    what was sent, corrected if wanted, and the estimated noise is the power of this answer to silence *)
Theorem C114_direct : forall A P (zero : A) (rt : routines A P) (d : device (signal A * signal A) A P) s b,
  let '(d', s', r) := trigger_direct A P _ (loop_hardware A) rt d s b in
  (forall v, r = Ok v <-> s_carrier s = d_carrier (d_settings d) /\ s_rate s = d_rate (d_settings d) /\
     exists t, sent A (correct_transmission rt) s b t /\ v = if b then remove_leakage rt t t else t) /\
  (forall v, r = Ok v -> recent_upload d' = recent_upload d) /\
  (forall n cache, let c := d_settings d in
     let '(d1, p) := estimate_noise_power A P _ zero (loop_hardware A) rt d n cache in
     forall v, p = Ok v <-> exists t, sent A (correct_transmission rt) (Sig (d_rate c) (d_carrier c) (repeat (repeat zero n) (d_tx c))) true t /\
                            v = power rt (remove_leakage rt t t) /\ noise_power d1 = if cache then Some v else noise_power d).
Proof.
  intros A P zero rt d s b.
  pose proof (direct_loop A P rt d s b) as L.
  destruct (trigger_direct A P _ (loop_hardware A) rt d s b) as [[d' s'] r] eqn:T.
  split; [|split].
  - intros v. split.
    + intros ->. destruct L as (_&_&_&L4&L5&t&L6&_&_&L9). split; [exact L4|]. split; [exact L5|]. exists t. auto.
    + intros (E1&E2&t&E3&->). unfold trigger_direct in T. cbv zeta in T. rewrite E1, E2, !Z.eqb_refl in T. cbn [negb] in T.
      destruct b; cbn in E3.
      * destruct E3 as [x [E3 ->]]. rewrite E3 in T. cbn in T. injection T as _ _ <-. rewrite E1, E2. reflexivity.
      * cbn in T. injection T as _ _ <-. subst t. destruct s; cbn in *; subst; reflexivity.
  - intros v ->. apply L.
  - intros n cache c. unfold estimate_noise_power. cbv zeta. fold c.
    pose proof (direct_loop A P rt d (Sig (d_rate c) (d_carrier c) (zeros A zero (d_tx c) n)) true) as L2.
    destruct (trigger_direct A P _ (loop_hardware A) rt d (Sig (d_rate c) (d_carrier c) (zeros A zero (d_tx c) n)) true) as [[d2 s2] r2] eqn:T2.
    destruct r2 as [v2|e].
    + destruct L2 as (_&_&L3&_&_&t&L6&_&_&L9). intros v. split.
      * intros E. injection E as <-. exists t. split; [exact L6|]. cbn iota in L9. subst v2. split; [reflexivity|]. destruct cache; [reflexivity|exact L3].
      * intros (t'&E1&E2&E3). f_equal. rewrite E2. cbn [sent] in L6, E1. destruct L6 as [x [X1 X2]]. destruct E1 as [y [Y1 Y2]]. cbn [s_streams s_rate s_carrier] in *.
        change (repeat (repeat zero n) (d_tx c)) with (zeros A zero (d_tx c) n) in Y1. rewrite X1 in Y1. injection Y1 as <-. subst. reflexivity.
    + intros v. split; [discriminate|]. intros (t'&E1&E2&E3). cbn [sent] in E1. destruct E1 as [y [Y1 Y2]]. cbn [s_streams] in Y1.
      exfalso. unfold trigger_direct in T2. cbv zeta in T2. cbn [s_carrier s_rate s_streams] in T2. fold c in T2. rewrite !Z.eqb_refl in T2. cbn [negb] in T2.
      change (repeat (repeat zero n) (d_tx c)) with (zeros A zero (d_tx c) n) in Y1. rewrite Y1 in T2. cbn in T2. discriminate.
Qed.
Print Assumptions C114_direct.
(** On any hardware: what is downloaded after uploading the signal and triggering, less the leakage of what was uploaded if wanted *)
Theorem C114_direct_hardware : forall A P H (hw : hardware A H) (rt : routines A P) (d : device H A P) s (b : bool) x h1 s1 u r,
  s_carrier s = d_carrier (d_settings d) -> s_rate s = d_rate (d_settings d) ->
  (if b then correct_transmission rt (s_streams s) = Ok x else x = s_streams s) ->
  hw_upload hw (d_hw d) (Sig (s_rate s) (s_carrier s) x) = (h1, s1, u) -> hw_download hw (hw_trigger hw h1) = Ok r ->
  let '(d', _, y) := trigger_direct A P H hw rt d s b in
  d_hw d' = hw_trigger hw h1 /\ y = Ok (if b then remove_leakage rt u r else r).
Proof.
  intros A P H hw rt d s b x h1 s1 u r Hc Hr Hx Hu Hd. unfold trigger_direct. rewrite Hc, Hr, !Z.eqb_refl. cbn [negb].
  assert (E : (if b then correct_transmission rt (s_streams s) else Ok (s_streams s)) = Ok x) by (destruct b; [exact Hx|rewrite Hx; reflexivity]).
  rewrite E. rewrite Hc, Hr in Hu. rewrite Hu, Hd. split; reflexivity.
Qed.
Print Assumptions C114_direct_hardware.
Example C114_direct_hardware_met : let hw := Hardware (fun (h : nat) (s : signal nat) => (S h, s, s)) (fun h => h) (fun h => Ok (Sig 1%Z 2%Z [[h]])) in
  hw_upload hw 4 (Sig 1%Z 2%Z [[7]]) = (5, Sig 1%Z 2%Z [[7]], Sig 1%Z 2%Z [[7]]) /\ hw_download hw (hw_trigger hw 5) = Ok (Sig 1%Z 2%Z [[5]]).
Proof. split; reflexivity. Qed.
Example C114_direct_met : trigger_direct Z nat _ (loop_hardware Z) zrt zdev (zsig [1; 2]%Z) true
  = (Device zset (zsig [2; 4]%Z, zsig [2; 4]%Z) None None, zsig [2; 4]%Z, Ok (zsig [0; 0]%Z)).
Proof. reflexivity. Qed.

(** Fails: a directly played signal is not what the next reception is corrected by, but the transmission before it.
    Removing the leakage of exactly what was sent leaves nothing after a transmission and something after a direct trigger *)
Theorem C114_stale_leakage_refuted : exists a b d1 d2 l1 l2,
  zrun zdev [CTransmit Z [a]; CTrigger Z] = (d1, l1) /\ zrecv d1 Nothing = Ok (Processed [zsig [0; 0]%Z] [zsig [0; 0]%Z; zsig [0; 0]%Z]) /\
  zrun d1 [CDirect Z b false] = (d2, l2) /\ snd (d_hw d2) = b /\ fst (d_hw d2) = b /\
  zrecv d2 Nothing = Ok (Processed [zsig [4; 4]%Z] [zsig [4; 4]%Z; zsig [4; 4]%Z]).
Proof.
  exists (zsig [1; 2]%Z), (zsig [5; 6]%Z). do 4 eexists.
  split; [reflexivity|]. split; [vm_compute; reflexivity|]. split; [reflexivity|]. split; [reflexivity|]. split; [reflexivity|]. vm_compute. reflexivity.
Qed.
Print Assumptions C114_stale_leakage_refuted.

(** Fails: a signal object played directly comes back changed, so playing it twice sends it weighted once and then twice *)
Theorem C114_played_twice_refuted : forall A P (mul : A -> A -> A) (w : A) (rt : routines A P) (d : device (signal A * signal A) A P) x,
  correct_transmission rt = weigh mul [w] ->
  let s := Sig (d_rate (d_settings d)) (d_carrier (d_settings d)) [x] in
  let '(d1, s1, _) := trigger_direct A P _ (loop_hardware A) rt d s true in
  let '(d2, s2, _) := trigger_direct A P _ (loop_hardware A) rt d1 s1 true in
  s_streams (fst (d_hw d1)) = [map (mul w) x] /\ s_streams s1 = [map (mul w) x] /\ s_streams (fst (d_hw d2)) = [map (fun a => mul w (mul w a)) x].
Proof.
  intros A P mul w rt d x E s. unfold trigger_direct. cbn [s_carrier s_rate s_streams s]. cbv zeta. rewrite !Z.eqb_refl. cbn [negb].
  rewrite E. unfold weigh at 1. cbn -[Z.eqb]. rewrite !Z.eqb_refl. cbn. rewrite map_map. repeat split; reflexivity.
Qed.
Print Assumptions C114_played_twice_refuted.

(** Without impinging signals, processing takes over the filtered content of the hardware as if it had been passed *)
Theorem C114_filtered : forall A P H add (hw : hardware A H) (rt : routines A P) (d : device H A P) s,
  hw_download hw (d_hw d) = Ok s -> lowpass_filter (d_settings d) = true ->
  let c := d_settings d in
  let cutoff := if Z.leb (lowpass_bandwidth c) 0 then d_rate c else (2 * lowpass_bandwidth c)%Z in
  process_input A P H add hw rt d Nothing = process_input A P H add hw rt d (One (Sig (s_rate s) (s_carrier s) (lowpassed rt cutoff (d_rate c) (s_streams s)))).
Proof. intros A P H add hw rt d s E1 E2 c cutoff. unfold process_input. rewrite E1. cbn [bind]. unfold lowpass. rewrite E2. reflexivity. Qed.
Print Assumptions C114_filtered.
Definition zdev_filter : device (signal Z * signal Z) Z nat := Device (filter_settings true 3 zset) (zsig [], zsig [2; 4]%Z) None None.
Example C114_filtered_met : process_input Z nat _ Z.add (loop_hardware Z) zrt zdev_filter Nothing = Ok (Processed [zsig [1; 2]%Z] [zsig [1; 2]%Z; zsig [1; 2]%Z]).
Proof. vm_compute. reflexivity. Qed.

(** Fails for receiving: no setting of the filter changes what any device receives *)
Theorem C114_receive_filter_refuted : forall A P H add (hw : hardware A H) (rt : routines A P) (d : device H A P) b w i,
  receive A P H add hw rt (with_settings A P H d (filter_settings b w (d_settings d))) i = receive A P H add hw rt d i.
Proof. intros. apply receive_filter. Qed.
Print Assumptions C114_receive_filter_refuted.
Example C114_receive_filter_met : zrecv zdev_filter Nothing = Ok (Processed [zsig [2; 4]%Z] [zsig [2; 4]%Z; zsig [2; 4]%Z]).
Proof. vm_compute. reflexivity. Qed.

(** Fails: the arguments enabling adaptive sampling and the filter are ignored, also when a stored device is restored. All other settings are taken over *)
Theorem C114_constructor_refuted : forall A P H (c : settings) (h : H) np,
  (lowpass_bandwidth c < 0)%Z /\ make_device A P H c h np = Raise ValueError \/
  (0 <= lowpass_bandwidth c)%Z /\ exists d : device H A P, make_device A P H c h np = Ok d /\
    adaptive_sampling (d_settings d) = false /\ lowpass_filter (d_settings d) = false /\
    d_rate (d_settings d) = d_rate c /\ d_carrier (d_settings d) = d_carrier c /\ d_tx (d_settings d) = d_tx c /\ d_rx (d_settings d) = d_rx c /\
    d_receivers (d_settings d) = d_receivers c /\ lowpass_bandwidth (d_settings d) = lowpass_bandwidth c /\ noise_power d = np /\ recent_upload d = None.
Proof.
  intros A P H c h np. unfold make_device, set_bandwidth. cbn [lowpass_bandwidth set_lowpass set_adaptive].
  destruct (lowpass_bandwidth c <? 0)%Z eqn:E; [left|right]; [apply Z.ltb_lt in E|apply Z.ltb_ge in E].
  - split; [exact E|reflexivity].
  - split; [exact E|]. eexists. split; [reflexivity|]. cbn. repeat split; reflexivity.
Qed.
Print Assumptions C114_constructor_refuted.
Theorem C114_restored_refuted : forall A P H (d : device H A P) (h : H), (0 <= lowpass_bandwidth (d_settings d))%Z ->
  exists d', restore A P H d h = Ok d' /\ noise_power d' = noise_power d /\ lowpass_bandwidth (d_settings d') = lowpass_bandwidth (d_settings d) /\
    (d_settings d' = d_settings d <-> adaptive_sampling (d_settings d) = false /\ lowpass_filter (d_settings d) = false).
Proof.
  intros A P H d h Hb. unfold restore, make_device, set_bandwidth. cbn [lowpass_bandwidth set_lowpass set_adaptive].
  apply Z.ltb_ge in Hb. rewrite Hb. cbn [bind]. eexists. split; [reflexivity|]. cbn. repeat split; try reflexivity.
  - rewrite <- H0. reflexivity.
  - rewrite <- H0. reflexivity.
  - intros [E1 E2]. destruct (d_settings d); cbn in *; subst; reflexivity.
Qed.
Print Assumptions C114_restored_refuted.
Example C114_restored_met : exists d', restore Z nat _ zdev_filter (zsig [], zsig []) = Ok d' /\ lowpass_filter (d_settings zdev_filter) = true /\ lowpass_filter (d_settings d') = false.
Proof. eexists. split; [reflexivity|split; reflexivity]. Qed.

(** With adaptive sampling, a single operator's encoded samples are sent as they are, at the device's rate and carrier.
    Operators whose rate differs from the first one's are refused *)
Theorem C114_adaptive : forall A P add (rt : routines A P) (c : settings) s pre t post,
  keeps_shape A P rt -> adaptive_sampling c = true ->
  mixed_signal A P add rt c [s] = Ok (Sig (d_rate c) (d_carrier c) (s_streams (encode rt s))) /\
  (1 <= num_streams s * num_samples s -> List.Forall (fun t => s_rate t = s_rate s /\ num_streams t = num_streams s) pre -> s_rate t <> s_rate s ->
   mixed_signal A P add rt c (s :: pre ++ t :: post) = Raise RuntimeError).
Proof.
  intros A P add rt c s pre t post K Ha. unfold mixed_signal, generate_output. rewrite Ha. cbn [negb orb length Nat.ltb Nat.leb].
  assert (E0 : forall l, superimpose_all A P add rt false (Sig (d_rate c) (d_carrier c) (repeat [] (d_tx c))) (s :: l) = superimpose_all A P add rt false s l).
  { intros l. cbn [superimpose_all]. unfold superimpose. rewrite empty_size. reflexivity. }
  rewrite !E0. split; [reflexivity|]. intros Hs HF Ht.
  destruct (superimpose_prefix A P add rt false pre K s (t :: post) Hs HF) as (w&W1&W2&W3&W4). rewrite W1. cbn [superimpose_all].
  unfold superimpose. assert (E : (num_streams w * num_samples w <? 1) = false) by (apply Nat.ltb_ge; lia). rewrite E. cbv zeta.
  assert (E2 : (s_rate t =? s_rate w)%Z = false) by (apply Z.eqb_neq; rewrite W2; exact Ht). rewrite E2. reflexivity.
Qed.
Print Assumptions C114_adaptive.
Example C114_adaptive_met : keeps_shape Z nat zrt /\ mixed_signal Z nat Z.add zrt (set_adaptive true zset) [Sig 7 100 [[1%Z]]] = Ok (zsig [1%Z]) /\
  mixed_signal Z nat Z.add zrt (set_adaptive true zset) [Sig 7 100 [[1%Z]]; Sig 10 100 [[1%Z]]] = Raise RuntimeError.
Proof. split; [intros r c s; reflexivity|split; reflexivity]. Qed.

(** Fails without adaptive sampling: the signal of a single operator is uploaded at its own rate and carrier, not at the device's,
    and triggering and receiving then raises a ValueError *)
Theorem C114_single_operator_refuted : forall A P (add : A -> A -> A) (rt : routines A P) (d : device (signal A * signal A) A P) s,
  adaptive_sampling (d_settings d) = false -> s_rate (encode rt s) <> d_rate (d_settings d) ->
  let '(d1, r) := transmit A P _ add (loop_hardware A) rt d [s] in
  r = Ok (encode rt s) /\ receive A P _ add (loop_hardware A) rt (trigger A P _ (loop_hardware A) d1) Nothing = Raise ValueError.
Proof.
  intros A P add rt d s Ha Hr. unfold transmit, mixed_signal, generate_output. rewrite Ha. cbn [negb orb superimpose_all].
  unfold superimpose. rewrite empty_size. cbn [Nat.ltb Nat.leb bind]. cbn [loop_hardware hw_upload]. split; [reflexivity|].
  unfold receive, trigger. cbn [loop_hardware hw_download hw_trigger d_hw d_settings recent_upload noise_power fst snd bind]. apply process_refuses. right. exact Hr.
Qed.
Print Assumptions C114_single_operator_refuted.
Example C114_single_operator_met : snd (transmit Z nat _ Z.add (loop_hardware Z) zrt zdev [Sig 7 100 [[1%Z]]]) = Ok (Sig 7 100 [[1%Z]]).
Proof. reflexivity. Qed.

(** Fails: of several impinging signals a physical device processes only the first *)
Theorem C114_first_signal_refuted : forall A P H add (hw : hardware A H) (rt : routines A P) (d : device H A P) s l,
  process_input A P H add hw rt d (Several (s :: l)) = process_input A P H add hw rt d (One s) /\
  receive A P H add hw rt d (Several (s :: l)) = receive A P H add hw rt d (One s) /\
  process_input A P H add hw rt d (Several []) = Raise IndexError.
Proof. intros. repeat split; reflexivity. Qed.
Print Assumptions C114_first_signal_refuted.

(** Fails: the routine that devices share hands its receivers the ports of a signal without any sample whenever the number of impinging signals is not one *)
Theorem C114_superposition_refuted : forall A P add (rt : routines A P) (c : settings) l,
  length l <> 1 -> List.Forall (fun p => ports_exist p (num_streams (decode rt (Sig (d_rate c) (d_carrier c) (repeat [] (d_rx c)))))) (d_receivers c) ->
  exists xs, device_process_input A P add rt c l = Ok (Processed l xs) /\
    Forall2 (fun p x => handed A p (decode rt (Sig (d_rate c) (d_carrier c) (repeat [] (d_rx c)))) x) (d_receivers c) xs.
Proof.
  intros A P add rt c l Hl Hp. destruct (selected_all A _ _ Hp) as [xs [X1 X2]]. exists xs. split; [|exact X2].
  unfold device_process_input.
  set (e := Sig (d_rate c) (d_carrier c) (repeat [] (d_rx c))) in *.
  assert (E : match l with [s] => Ok s | _ => do _ <- mapM (fun t => superimpose A P add rt true e t) l; Ok e end = Ok e).
  { assert (E1 : exists v, mapM (fun t => superimpose A P add rt true e t) l = Ok v).
    { clear. induction l as [|t l [v IH]]; [eexists; reflexivity|]. cbn [mapM]. unfold superimpose at 1. unfold e at 1 2. rewrite empty_size.
      cbn [Nat.ltb Nat.leb bind]. rewrite IH. eexists; reflexivity. }
    destruct E1 as [v E1]. rewrite E1. destruct l as [|a [|b l]]; [reflexivity|cbn in Hl; lia|reflexivity]. }
  cbv zeta. rewrite E. cbn [bind]. unfold e at 1. unfold num_streams at 1. cbn [s_streams]. rewrite repeat_length, Nat.eqb_refl. cbn [negb].
  rewrite X1. reflexivity.
Qed.
Print Assumptions C114_superposition_refuted.
Example C114_superposition_met : device_process_input Z nat Z.add zrt zset [zsig [1%Z]; zsig [2%Z]] = Ok (Processed [zsig [1%Z]; zsig [2%Z]] [zsig []; zsig []]).
Proof. vm_compute. reflexivity. Qed.

(** A USRP hearing its own transmission downloads every stream with the weights of both directions, followed by zeros only;
    the reception holds at least the longest expected frame, after the maximum receive delay, and both directions are configured in multiples of four samples *)
Theorem C114_usrp_echo : forall A (zero : A) mul (u : usrp A) (h : radio A) s n,
  (forall w, mul w zero = zero) ->
  length (u_weights_tx A u) = num_streams s -> length (u_weights_rx A u) = num_streams s -> u_rx A u = num_streams s ->
  (forall x, In x (s_streams s) -> length x = n) -> 1 <= num_streams s ->
  let hw := usrp_hardware A zero mul u (echo zero) in
  let '(h1, _, _) := hw_upload hw h s in
  exists y k, hw_download hw (hw_trigger hw h1) = Ok y /\ s_rate y = u_rate A u /\ s_carrier y = u_carrier A u /\ num_streams y = num_streams s /\
  (forall i x wt wr, nth_error (s_streams s) i = Some x -> nth_error (u_weights_tx A u) i = Some wt -> nth_error (u_weights_rx A u) i = Some wr ->
     nth_error (s_streams y) i = Some (map (fun a => mul wr (mul wt a)) x ++ repeat zero k)) /\
  Nat.max (u_frame A u) n <= n + k /\ (0 < Nat.max (u_frame A u) n -> Nat.max (u_frame A u) n + u_delay A u <= n + k) /\
  r_num A h1 mod 4 = 0 /\ forall r, In r (r_tx A h1) -> length r mod 4 = 0.
Proof.
  intros A zero mul u h s n Hz Ht Hr Hx Hn H1 hw. unfold hw, usrp_hardware. cbn [hw_upload hw_download hw_trigger].
  pose proof (usrp_echo A zero mul u Hz h s n Ht Hr Hx Hn H1) as L. cbv zeta in L.
  destruct (usrp_upload A zero mul u h s) as [[h1 m'] r] eqn:E. cbn [fst] in L. destruct L as (y&L1&L2&L3&L4&L5).
  exists y, (reception_samples A zero u n - u_app A u - u_pre A u - n). repeat split; try assumption.
  - pose proof (reception_ge A zero u n). lia.
  - intros Hp. pose proof (reception_delay A zero u n Hp). lia.
  - unfold usrp_upload in E. rewrite weigh_ok in E by (symmetry; exact Ht). injection E as <- _ _. cbn [r_num]. apply reception_mod.
  - unfold usrp_upload in E. rewrite weigh_ok in E by (symmetry; exact Ht). injection E as <- _ _. cbn [r_tx]. intros q Hq.
    apply in_map_iff in Hq as [z [<- _]]. apply padded_mod.
Qed.
Print Assumptions C114_usrp_echo.
Definition zusrp : usrp Z := Usrp Z 10 100 2 3 4 1 1 [2%Z] [3%Z].
Example C114_usrp_echo_met :
  let hw := usrp_hardware Z 0%Z Z.mul zusrp (echo 0%Z) in
  let '(h1, _, _) := hw_upload hw (Radio Z [] 0 false []) (zsig [1; 2]%Z) in
  hw_download hw (hw_trigger hw h1) = Ok (zsig [6; 12; 0; 0; 0; 0; 0]%Z).
Proof. vm_compute. reflexivity. Qed.

(** Fails: if the radio returns its reception in several parts, all but the last are lost, and if it returns none a TypeError is raised *)
Theorem C114_usrp_parts_refuted : forall A mul (u : usrp A) (h : radio A) parts last,
  r_enabled A h = true -> r_collected A h = parts ++ [last] ->
  usrp_download A mul u h = usrp_download A mul u (Radio A (r_tx A h) (r_num A h) true [last]) /\
  usrp_download A mul u (Radio A (r_tx A h) (r_num A h) true []) = Raise TypeError.
Proof.
  intros A mul u h parts last E1 E2. split; [|reflexivity]. unfold usrp_download. rewrite E1, E2. cbn [r_enabled r_collected negb].
  unfold usrp_collect. rewrite rev_app_distr. reflexivity.
Qed.
Print Assumptions C114_usrp_parts_refuted.
Example C114_usrp_parts_met : usrp_download Z Z.mul zusrp (Radio Z [] 0 true [[[1; 2; 3; 4; 5; 6]]%Z; [[7; 8; 9; 10; 11; 12]]%Z]) = Ok (zsig [27]%Z).
Proof. vm_compute. reflexivity. Qed.

(** Fails: a signal played directly by a calibrated USRP is weighted twice, and the transmission returned by a USRP shows the weighted instead of the operators' samples *)
Theorem C114_usrp_weights_refuted : forall A P (zero : A) add mul (u : usrp A) air (w : A) (rt : routines A P) (d : device (radio A) A P) x,
  u_weights_tx A u = [w] -> correct_transmission rt = weigh mul [w] -> adaptive_sampling (d_settings d) = false ->
  let hw := usrp_hardware A zero mul u air in
  let s := Sig (d_rate (d_settings d)) (d_carrier (d_settings d)) [x] in
  (let '(d1, _, _) := trigger_direct A P _ hw rt d s true in r_tx A (d_hw d1) = [padded A zero u (map (fun a => mul w (mul w a)) x)]) /\
  (encode rt s = s -> snd (transmit A P _ add hw rt d [s]) = Ok (Sig (s_rate s) (s_carrier s) [map (mul w) x])).
Proof.
  intros A P zero add mul u air w rt d x E1 E2 Ha hw s. split.
  - unfold trigger_direct. cbv zeta. cbn [s_carrier s_rate s_streams s]. rewrite !Z.eqb_refl. cbn [negb]. rewrite E2. unfold weigh at 1.
    cbn [length Nat.eqb combine map fst snd]. unfold hw, usrp_hardware. cbn [hw_upload hw_trigger]. unfold usrp_upload. rewrite E1. unfold weigh.
    cbn [s_streams length Nat.eqb combine map fst snd]. cbn. rewrite map_map. reflexivity.
  - intros Es. unfold transmit, mixed_signal, generate_output. rewrite Ha. cbn [negb orb superimpose_all].
    unfold superimpose. rewrite empty_size. cbn [Nat.ltb Nat.leb bind]. rewrite Es. unfold hw, usrp_hardware. cbn [hw_upload]. unfold usrp_upload. rewrite E1.
    unfold weigh. cbn. reflexivity.
Qed.
Print Assumptions C114_usrp_weights_refuted.
Example C114_usrp_weights_met :
  let '(d, _, _) := trigger_direct Z nat _ (usrp_hardware Z 0%Z Z.mul zusrp (echo 0%Z)) zrt (Device zset (Radio Z [] 0 false []) None None) (zsig [1; 2]%Z) true in
  r_tx Z (d_hw d) = [[0; 0; 4; 8; 0; 0; 0; 0]%Z].
Proof. vm_compute. reflexivity. Qed.

(** After any history of calls of a dummy: receiving simulates the reception of its receive memory, which holds the signal transmitted last before the last trigger,
    or silence of the same shape if it was not to receive its transmissions then; playing signals directly changes neither memory *)
Theorem C114_dummy_history : forall A (zero : A) (sim : simulation A) c (d d' : dummy A) ks l,
  drun A zero sim c d ks = (d', l) ->
  map fst l = ks /\
  exists b u w, dummy_memories zero c (y_receive A d, y_uploaded A d, y_downloaded A d) l (b, u, w) /\
    dummy_receive A sim d' Nothing = sim_process A sim [w] None /\
    forall s calibrate v, dummy_direct A zero sim c d' s calibrate = Ok v <->
      exists q ys, sim_process A sim [if b then s else Sig (y_rate c) (y_carrier c) (repeat (repeat zero (num_samples s)) (y_rx c))] (Some (sim_leak A sim s)) = Ok (q, ys) /\
        v = if calibrate then sim_remove A sim s q else q.
Proof.
  intros A zero sim c d d' ks l E. destruct (drun_memories A zero sim c ks d d' l E) as [M1 M2]. split; [exact M2|].
  exists (y_receive A d'), (y_uploaded A d'), (y_downloaded A d'). split; [exact M1|]. split; [reflexivity|].
  intros s calibrate v. unfold dummy_direct, dummy_process. cbv zeta.
  change (zeros A zero (y_rx c) (num_samples s)) with (repeat (repeat zero (num_samples s)) (y_rx c)).
  destruct (sim_process A sim [if y_receive A d' then s else _] _) as [[q ys]|e]; cbn [bind fst]; split.
  - intros X. injection X as <-. exists q, ys. split; reflexivity.
  - intros (q'&ys'&E1&->). injection E1 as <- <-. reflexivity.
  - discriminate.
  - intros (q'&ys'&E1&_). discriminate.
Qed.
Print Assumptions C114_dummy_history.
Definition zsim : simulation Z :=
  Simulation Z (fun ts => match ts with [t] => Ok t | _ => Raise RuntimeError end) (fun l _ => match l with [s] => Ok (s, [s]) | _ => Raise ValueError end) (fun s => s) (fun _ r => r).
Definition zdummy : dummy_settings := DummySettings 10 100 1 1.
Example C114_dummy_history_met :
  let d := fst (drun Z 0%Z zsim zdummy (make_dummy Z zdummy true) [YTransmit Z [zsig [1; 2]%Z]; YTrigger Z; YTransmit Z [zsig [3; 4]%Z]; YDirect Z (zsig [9]%Z) true]) in
  dummy_receive Z zsim d Nothing = Ok (zsig [1; 2]%Z, [zsig [1; 2]%Z]) /\
  let d' := fst (drun Z 0%Z zsim zdummy d [YSet Z false; YTrigger Z]) in dummy_receive Z zsim d' Nothing = Ok (zsig [0; 0]%Z, [zsig [0; 0]%Z]).
Proof. vm_compute. split; reflexivity. Qed.

(** Fails: processing without impinging signals uses the signal transmitted last instead, whether or not the dummy was triggered since or is to receive its transmissions *)
Theorem C114_dummy_process_refuted : forall A (zero : A) (sim : simulation A) c (d d' : dummy A) ks l,
  drun A zero sim c d ks = (d', l) ->
  exists b u w, dummy_memories zero c (y_receive A d, y_uploaded A d, y_downloaded A d) l (b, u, w) /\ dummy_process A sim d' Nothing None = sim_process A sim [u] None.
Proof.
  intros A zero sim c d d' ks l E. destruct (drun_memories A zero sim c ks d d' l E) as [M1 _].
  exists (y_receive A d'), (y_uploaded A d'), (y_downloaded A d'). split; [exact M1|reflexivity].
Qed.
Print Assumptions C114_dummy_process_refuted.
Example C114_dummy_process_met :
  let d := fst (drun Z 0%Z zsim zdummy (make_dummy Z zdummy false) [YTransmit Z [zsig [1; 2]%Z]; YTrigger Z; YTransmit Z [zsig [3; 4]%Z]]) in
  dummy_process Z zsim d Nothing None = Ok (zsig [3; 4]%Z, [zsig [3; 4]%Z]) /\ dummy_receive Z zsim d Nothing = Ok (zsig [0; 0]%Z, [zsig [0; 0]%Z]).
Proof. vm_compute. split; reflexivity. Qed.
