From Coq Require Import List Arith Lia Bool.
From Verif Require Import Base BaseLemmas Cal_Model Cal_Spec.
Import ListNotations.

Lemma kind_eqb_spec : forall a b, reflect (a = b) (kind_eqb a b).
Proof. destruct a, b; constructor; congruence. Qed.
Lemma same_spec : forall a b, reflect (a = b) (same a b).
Proof. intros [x|] [y|]; cbn [same]; try (constructor; congruence). destruct (Nat.eqb_spec x y); constructor; congruence. Qed.

Definition bounds (w : world) : Prop :=
  (forall d k, d < num_devices w -> slot w d k < num_calibrations w) /\
  (forall c d, c < num_calibrations w -> device_of w c = Some d -> d < num_devices w).

Lemma set_slot_new : forall f w d k c, slot w d k <> c -> device_of w c = None -> kind_of w c = k ->
  set_slot (3 + f) w d k c = Ok (put_device (put_slot w d k c) c (Some d)).
Proof.
  intros f w d k c Sl D K. cbn [Nat.add]. cbn [set_slot]. destruct (Nat.eqb_spec (slot w d k) c) as [E|_]; [contradiction|]. cbn [put_slot device_of kind_of slot].
  assert (T : set_device (S (S f)) (put_slot w d k c) c (Some d) = Ok (put_device (put_slot w d k c) c (Some d))).
  { cbn [set_device put_slot put_device device_of kind_of slot same bind configure]. rewrite D. cbn [same bind]. cbn [kind_of put_slot]. rewrite K. cbn [set_slot slot put_device put_slot].
    rewrite Nat.eqb_refl. destruct (kind_eqb_spec k k); [|congruence]. cbn [andb]. rewrite Nat.eqb_refl. reflexivity. }
  destruct k; rewrite ?D; cbn [same]; exact T.
Qed.

Lemma set_slot_here : forall f w d k c, device_of w c = Some d -> exists w', set_slot (2 + f) w d k c = Ok w' /\
  num_devices w' = num_devices w /\ num_calibrations w' = num_calibrations w /\ kind_of w' = kind_of w /\ device_of w' = device_of w /\
  slot w' d k = c /\ (forall d' k', (d', k') <> (d, k) -> slot w' d' k' = slot w d' k').
Proof.
  intros f w d k c D. cbn [Nat.add set_slot]. destruct (Nat.eqb_spec (slot w d k) c) as [E|E].
  - exists w. repeat split; auto.
  - exists (put_slot w d k c). split; [|cbn [num_devices num_calibrations kind_of device_of slot put_slot]; repeat split; auto].
    + cbn [put_slot device_of]. destruct k; cbn [device_of put_slot set_device]; destruct (same_spec (device_of w c) (Some d)); congruence.
    + rewrite Nat.eqb_refl. destruct (kind_eqb_spec k k); [reflexivity|congruence].
    + intros d' k' N. destruct (Nat.eqb_spec d' d); destruct (kind_eqb_spec k' k); cbn [andb]; congruence.
Qed.

Lemma set_device_moves : forall f w c v, bounds w -> c < num_calibrations w -> (forall d, v = Some d -> d < num_devices w) -> device_of w c <> v ->
  exists w', set_device (4 + f) w c v = Ok w' /\ moved w w' c v /\ bounds w' /\ num_calibrations w <= num_calibrations w'.
Proof.
  intros f w c v [BS BD] Hc Hv N. change (4 + f) with (S (3 + f)). cbn [set_device]. destruct (same_spec (device_of w c) v) as [E|_]; [contradiction|].
  set (k := kind_of w c).
  assert (A : exists w1, match device_of w c with None => Ok w | Some d => configure (set_slot (3 + f)) w d k None end = Ok w1 /\
    num_devices w1 = num_devices w /\ num_calibrations w <= num_calibrations w1 /\
    (forall c', c' < num_calibrations w -> kind_of w1 c' = kind_of w c' /\ device_of w1 c' = device_of w c') /\
    (forall d k', d < num_devices w -> (k' <> k \/ device_of w c <> Some d) -> slot w1 d k' = slot w d k') /\
    (forall d, device_of w c = Some d -> slot w1 d k = num_calibrations w /\ num_calibrations w < num_calibrations w1 /\ kind_of w1 (num_calibrations w) = k /\ device_of w1 (num_calibrations w) = Some d) /\
    (forall c' d, num_calibrations w <= c' < num_calibrations w1 -> device_of w1 c' = Some d -> d < num_devices w)).
  { destruct (device_of w c) as [d0|] eqn:D.
    - assert (Hd0 : d0 < num_devices w) by (apply (BD c); assumption).
      unfold configure, allocate. rewrite set_slot_new; cbn [num_devices num_calibrations kind_of device_of slot put_device put_slot].
      2:{ specialize (BS d0 k Hd0). lia. } 2:{ rewrite Nat.eqb_refl. reflexivity. } 2:{ rewrite Nat.eqb_refl. reflexivity. }
      eexists. split; [reflexivity|]. cbn [num_devices num_calibrations kind_of device_of slot put_device put_slot].
      split; [reflexivity|]. split; [lia|]. split; [|split; [|split]].
      + intros c' H'. destruct (Nat.eqb_spec c' (num_calibrations w)); [lia|]. split; reflexivity.
      + intros d k' Hd O. destruct (Nat.eqb_spec d d0); destruct (kind_eqb_spec k' k); cbn [andb]; try reflexivity. subst. destruct O; congruence.
      + intros d [= <-]. rewrite !Nat.eqb_refl. destruct (kind_eqb_spec k k); [|congruence]. cbn [andb]. repeat split; lia.
      + intros c' d H'. destruct (Nat.eqb_spec c' (num_calibrations w)); [|lia]. intros [= <-]. exact Hd0.
    - exists w. split; [reflexivity|]. split; [reflexivity|]. split; [lia|]. split; [auto|]. split; [auto|]. split; [discriminate|]. intros c' d H. lia. }
  destruct A as (w1 & -> & A1 & A2 & A3 & A4 & A5 & A6). cbn [bind].
  assert (K1 : kind_of (put_device w1 c v) c = k) by (cbn [kind_of put_device]; apply A3; exact Hc).
  destruct v as [d|].
  - unfold configure. cbn [device_of put_device]. rewrite K1. destruct (set_slot_here (1 + f) (put_device w1 c (Some d)) d k c) as (w2 & E2 & B1 & B2 & B3 & B4 & B5 & B6).
    { cbn [device_of put_device]. rewrite Nat.eqb_refl. reflexivity. }
    change (2 + (1 + f)) with (3 + f) in E2. rewrite E2.
    cbn [num_devices num_calibrations kind_of device_of slot put_device] in *.
    exists w2. split; [reflexivity|]. split; [|split].
    + unfold moved. fold k. repeat split.
      * rewrite B4, Nat.eqb_refl. reflexivity.
      * intros c' H' N'. rewrite B4. destruct (Nat.eqb_spec c' c); [contradiction|]. apply A3. exact H'.
      * intros c' H'. rewrite B3. apply A3. exact H'.
      * intros d' [= <-]. exact B5.
      * destruct (A5 d0 H) as (SL & _). rewrite B6, SL; [unfold calibration_exists; lia|congruence].
      * destruct (A5 d0 H) as (SL & L & _). rewrite B6, SL; [unfold calibration_exists; lia|congruence].
      * destruct (A5 d0 H) as (SL & L & Q & _). rewrite B6, SL, B3; [exact Q|congruence].
      * destruct (A5 d0 H) as (SL & L & _ & Q). rewrite B6, SL, B4; [|congruence]. destruct (Nat.eqb_spec (num_calibrations w) c); [lia|exact Q].
      * intros d' k' H' O. rewrite B6; [apply A4; [exact H'|]|]; destruct O as [O|[O O']]; [left; exact O|right; exact O'|congruence|congruence].
      * congruence.
    + split.
      * intros d' k' H'. rewrite B2. destruct (Nat.eq_dec d' d) as [->|Nd]; [destruct (kind_eqb_spec k' k) as [->|Nk]|].
        -- rewrite B5. lia.
        -- rewrite B6 by congruence. rewrite A4; [|apply Hv; reflexivity|left; exact Nk]. specialize (BS d k' (Hv d eq_refl)). lia.
        -- rewrite B6 by congruence. rewrite B1, A1 in H'. destruct (kind_eqb_spec k' k) as [->|Nk].
           ++ destruct (same_spec (device_of w c) (Some d')) as [E|E]; [destruct (A5 d' E); lia|]. rewrite A4; [specialize (BS d' k H'); lia|exact H'|right; exact E].
           ++ rewrite A4; [specialize (BS d' k' H'); lia|exact H'|left; exact Nk].
      * intros c' d' H' E. rewrite B4 in E. rewrite B1, A1. destruct (Nat.eqb_spec c' c) as [->|Nc]; [apply Hv; exact E|]. rewrite B2 in H'.
        destruct (Nat.lt_ge_cases c' (num_calibrations w)) as [L|L]; [|apply (A6 c'); [lia|exact E]]. apply (BD c'); [exact L|]. rewrite <- E. symmetry. apply A3. exact L.
    + lia.
  - exists (put_device w1 c None). split; [reflexivity|]. cbn [num_devices num_calibrations kind_of device_of slot put_device] in *. split; [|split].
    + unfold moved. fold k. cbn [num_devices num_calibrations kind_of device_of slot put_device]. repeat split; try discriminate.
      * rewrite Nat.eqb_refl. reflexivity.
      * intros c' H' N'. destruct (Nat.eqb_spec c' c); [contradiction|]. apply A3. exact H'.
      * intros c' H'. apply A3. exact H'.
      * cbn [slot]. destruct (A5 d H) as (SL & _). unfold calibration_exists. cbn. rewrite SL. lia.
      * destruct (A5 d H) as (SL & L & _). unfold calibration_exists. cbn. rewrite SL. lia.
      * destruct (A5 d H) as (SL & L & Q & _). cbn. rewrite SL. exact Q.
      * destruct (A5 d H) as (SL & L & _ & Q). cbn. rewrite SL. destruct (Nat.eqb_spec (num_calibrations w) c); [lia|exact Q].
      * intros d' k' H' O. apply A4; [exact H'|]. destruct O as [O|[O O']]; [left; exact O|right; exact O'].
      * exact A1.
    + split; cbn [num_devices num_calibrations kind_of device_of slot put_device].
      * intros d' k' H'. rewrite A1 in H'. destruct (kind_eqb_spec k' k) as [->|Nk].
        -- destruct (same_spec (device_of w c) (Some d')) as [E|E]; [destruct (A5 d' E); lia|]. rewrite A4; [specialize (BS d' k H'); lia|exact H'|right; exact E].
        -- rewrite A4; [specialize (BS d' k' H'); lia|exact H'|left; exact Nk].
      * intros c' d' H' E. rewrite A1. destruct (Nat.eqb_spec c' c) as [->|Nc]; [discriminate|].
        destruct (Nat.lt_ge_cases c' (num_calibrations w)) as [L|L]; [|apply (A6 c'); [lia|exact E]]. apply (BD c'); [exact L|]. rewrite <- E. symmetry. apply A3. exact L.
    + lia.
Qed.

Lemma set_slot_moves : forall f w d k c, bounds w -> c < num_calibrations w -> d < num_devices w -> kind_of w c = k ->
  exists w', set_slot (5 + f) w d k c = Ok w' /\ (slot w d k <> c -> moved w w' c (Some d)) /\ (slot w d k = c -> w' = w) /\ bounds w' /\ num_calibrations w <= num_calibrations w'.
Proof.
  intros f w d k c [BS BD] Hc Hd K. destruct (Nat.eq_dec (slot w d k) c) as [E|E].
  { exists w. cbn [Nat.add set_slot]. rewrite E, Nat.eqb_refl. repeat split; auto; contradiction. }
  assert (B : bounds (put_slot w d k c)).
  { split; cbn [num_devices num_calibrations kind_of device_of slot put_slot]; [|exact BD]. intros d' k' H'. destruct (_ && _); [exact Hc|apply BS; exact H']. }
  destruct (same_spec (device_of w c) (Some d)) as [D|D].
  { destruct (set_slot_here (3 + f) w d k c D) as (w2 & E2 & B1 & B2 & B3 & B4 & B5 & B6). exists w2. split; [exact E2|]. split; [|split; [contradiction|split; [|lia]]].
    - intros _. unfold moved. rewrite K. repeat split; rewrite ?B3, ?B4; auto.
      + intros d' [= <-]. exact B5.
      + congruence.
      + congruence.
      + congruence.
      + congruence.
      + intros d' k' H' O. apply B6. destruct O as [O|[O _]]; congruence.
    - split; rewrite ?B1, ?B2, ?B4; [|exact BD]. intros d' k' H'. destruct (Nat.eq_dec d' d) as [->|Nd]; [destruct (kind_eqb_spec k' k) as [->|Nk]|].
      + rewrite B5. exact Hc.
      + rewrite B6 by congruence. apply BS. exact H'.
      + rewrite B6 by congruence. apply BS. exact H'. }
  destruct (set_device_moves f (put_slot w d k c) c (Some d) B Hc) as (w2 & E2 & M & B' & L).
  { intros d' [= <-]. exact Hd. } { exact D. }
  exists w2. split; [|split; [|split; [contradiction|split; [exact B'|exact L]]]].
  - change (5 + f) with (S (4 + f)). cbn [set_slot]. destruct (Nat.eqb_spec (slot w d k) c); [contradiction|]. destruct k; cbn [device_of put_slot]; try exact E2.
    destruct (same_spec (device_of w c) (Some d)); [contradiction|exact E2].
  - intros _. destruct M as (M1 & M2 & M3 & M4 & M5 & M6 & M7). cbn [kind_of num_devices device_of slot put_slot] in *. unfold calibration_exists, device_exists in *. cbn [num_devices num_calibrations put_slot] in *.
    unfold moved. repeat split; try assumption.
    + destruct (M5 d0 H H0) as (Q & _). exact Q.
    + destruct (M5 d0 H H0) as (_ & Q & _). exact Q.
    + destruct (M5 d0 H H0) as (_ & _ & Q & _). exact Q.
    + destruct (M5 d0 H H0) as (_ & _ & _ & Q). exact Q.
    + intros d' k' H' O. rewrite (M6 d' k' H' O). destruct (Nat.eqb_spec d' d); destruct (kind_eqb_spec k' k); cbn [andb]; try reflexivity. subst. destruct O as [O|[O _]]; congruence.
Qed.

Definition owned_where (P : nat -> kind -> Prop) (w : world) : Prop :=
  forall d k, P d k -> d < num_devices w -> kind_of w (slot w d k) = k /\ device_of w (slot w d k) = Some d.
Lemma moved_owned : forall (P : nat -> kind -> Prop) w w' c v, bounds w -> owned_where P w -> c < num_calibrations w -> moved w w' c v ->
  owned_where (fun d k => P d k \/ v = Some d /\ k = kind_of w c) w'.
Proof.
  intros P w w' c v [BS BD] O Hc (M1 & M2 & M3 & M4 & M5 & M6 & M7) d k HP Hd. rewrite M7 in Hd. unfold calibration_exists, device_exists in *.
  destruct (kind_eqb_spec k (kind_of w c)) as [->|Nk].
  - destruct (same_spec v (Some d)) as [E|E].
    + rewrite (M4 d E), M3, M1 by exact Hc. auto.
    + destruct (same_spec (device_of w c) (Some d)) as [F|F].
      * destruct (M5 d F E) as (_ & _ & Q & Q'). auto.
      * assert (HP' : P d (kind_of w c)) by (destruct HP as [HP|[HP _]]; [exact HP|contradiction]).
        destruct (O d (kind_of w c) HP' Hd) as [O1 O2]. rewrite M6 by auto. rewrite M3, M2 by (try (intro Z; rewrite Z in O2; contradiction); apply BS; exact Hd). auto.
  - assert (HP' : P d k) by (destruct HP as [HP|[_ HP]]; [exact HP|contradiction]).
    destruct (O d k HP' Hd) as [O1 O2]. rewrite M6 by auto. rewrite M3, M2 by (try (intro Z; rewrite Z in O1; congruence); apply BS; exact Hd). auto.
Qed.
Lemma owned_weaken : forall (P Q : nat -> kind -> Prop) w, (forall d k, d < num_devices w -> Q d k -> P d k) -> owned_where P w -> owned_where Q w.
Proof. intros P Q w H O d k HQ Hd. apply O; auto. Qed.

Lemma allocate_facts : forall w k, let w' := fst (allocate w k) in let c := snd (allocate w k) in
  c = num_calibrations w /\ num_calibrations w' = S (num_calibrations w) /\ num_devices w' = num_devices w /\ slot w' = slot w /\ kind_of w' c = k /\ device_of w' c = None /\
  (forall c', c' < num_calibrations w -> kind_of w' c' = kind_of w c' /\ device_of w' c' = device_of w c').
Proof.
  intros w k. cbn. rewrite Nat.eqb_refl. repeat split; destruct (Nat.eqb_spec c' (num_calibrations w)); reflexivity || lia.
Qed.
Lemma allocate_ok : forall (P : nat -> kind -> Prop) w k, bounds w -> owned_where P w -> bounds (fst (allocate w k)) /\ owned_where P (fst (allocate w k)).
Proof.
  intros P w k [BS BD] O. destruct (allocate_facts w k) as (F1 & F2 & F3 & F4 & F5 & F6 & F7). split; [split|].
  - intros d k' H. rewrite F2, F4. rewrite F3 in H. specialize (BS d k' H). lia.
  - intros c d H E. rewrite F3. rewrite F2 in H. destruct (Nat.eq_dec c (num_calibrations w)) as [->|Nc].
    + rewrite <- F1 in E. rewrite F6 in E. discriminate.
    + assert (L : c < num_calibrations w) by lia. destruct (F7 c L) as [_ G]. rewrite G in E. exact (BD c d L E).
  - intros d k' HP H. rewrite F3 in H. rewrite F4. destruct (F7 (slot w d k') (BS d k' H)) as [-> ->]. apply O; assumption.
Qed.

Lemma configure_ok : forall f (P : nat -> kind -> Prop) w d k value, bounds w -> owned_where P w -> d < num_devices w ->
  (forall c, value = Some c -> c < num_calibrations w /\ kind_of w c = k /\ slot w d k <> c) ->
  exists w', configure (set_slot (5 + f)) w d k value = Ok w' /\ bounds w' /\ owned_where (fun d' k' => P d' k' \/ d' = d /\ k' = k) w' /\
    num_calibrations w <= num_calibrations w' /\ num_devices w' = num_devices w /\ (forall c, c < num_calibrations w -> kind_of w' c = kind_of w c) /\
    (forall k', k' <> k -> slot w' d k' = slot w d k').
Proof.
  assert (MAIN : forall f (P : nat -> kind -> Prop) w d k c, bounds w -> owned_where P w -> d < num_devices w -> c < num_calibrations w -> kind_of w c = k -> slot w d k <> c ->
    exists w', set_slot (5 + f) w d k c = Ok w' /\ bounds w' /\ owned_where (fun d' k' => P d' k' \/ d' = d /\ k' = k) w' /\
    num_calibrations w <= num_calibrations w' /\ num_devices w' = num_devices w /\ (forall c, c < num_calibrations w -> kind_of w' c = kind_of w c) /\
    (forall k', k' <> k -> slot w' d k' = slot w d k')).
  { intros f P w d k c B O Hd Hc K N. destruct (set_slot_moves f w d k c B Hc Hd K) as (w' & E & M & _ & B' & L). exists w'. specialize (M N).
    split; [exact E|]. split; [exact B'|]. split.
    - eapply owned_weaken; [|exact (moved_owned P w w' c (Some d) B O Hc M)]. cbv beta. intros d' k' _ [H|[-> ->]]; auto.
    - split; [exact L|]. destruct M as (M1 & M2 & M3 & M4 & M5 & M6 & M7). split; [exact M7|]. split; [exact M3|]. intros k' Nk. apply M6; [exact Hd|]. left. congruence. }
  intros f P w d k [c|] B O Hd V; unfold configure.
  - destruct (V c eq_refl) as (V1 & V2 & V3). exact (MAIN f P w d k c B O Hd V1 V2 V3).
  - destruct (allocate_facts w k) as (F1 & F2 & F3 & F4 & F5 & F6 & F7). destruct (allocate_ok P w k B O) as [B' O']. destruct (allocate w k) as [w1 c]. cbn [fst snd] in *.
    destruct (MAIN f P w1 d k c B' O') as (w' & E & G1 & G2 & G3 & G4 & G5 & G6); [lia|lia|exact F5| |].
    { rewrite F4. destruct B as [BS _]. specialize (BS d k Hd). lia. }
    exists w'. split; [exact E|]. split; [exact G1|]. split; [exact G2|]. split; [lia|]. split; [congruence|]. split.
    + intros c' H. rewrite G5 by lia. apply F7. exact H.
    + intros k' Nk. rewrite G6 by exact Nk. rewrite F4. reflexivity.
Qed.

Lemma option_ok_some : forall w k v c, option_ok (calibration_ok w k) v = true -> v = Some c -> c < num_calibrations w /\ kind_of w c = k.
Proof.
  intros w k v c H ->. cbn [option_ok] in H. unfold calibration_ok in H. apply andb_prop in H as [H1 H2]. apply Nat.ltb_lt in H1. destruct (kind_eqb_spec (kind_of w c) k); [auto|discriminate].
Qed.

Definition all : nat -> kind -> Prop := fun _ _ => True.
Lemma new_device_ok : forall f w l t a, bounds w -> owned_where all w -> writable w (NewDevice l t a) = true ->
  exists w', new_device (5 + f) w l t a = Ok w' /\ bounds w' /\ owned_where all w'.
Proof.
  intros f w l t a B O W. cbn [writable] in W. apply andb_prop in W as [W Wa]. apply andb_prop in W as [Wl Wt].
  unfold new_device.
  destruct (allocate_facts w Leakage) as (F1 & F2 & F3 & F4 & F5 & F6 & F7). destruct (allocate_ok all w Leakage B O) as [B1 O1]. destruct (allocate w Leakage) as [w1 cl]. cbn [fst snd] in *.
  destruct (allocate_facts w1 Antenna) as (G1 & G2 & G3 & G4 & G5 & G6 & G7). destruct (allocate_ok all w1 Antenna B1 O1) as [B2 O2]. destruct (allocate w1 Antenna) as [w2 ca]. cbn [fst snd] in *.
  destruct (allocate_facts w2 Delay) as (H1 & H2 & H3 & H4 & H5 & H6 & H7). destruct (allocate_ok all w2 Delay B2 O2) as [B3 O3]. destruct (allocate w2 Delay) as [w3 ct]. cbn [fst snd] in *.
  assert (KK : forall c, c < num_calibrations w -> kind_of w3 c = kind_of w c).
  { intros c Hc. destruct (H7 c) as [-> _]; [lia|]. destruct (G7 c) as [-> _]; [lia|]. destruct (F7 c) as [-> _]; [lia|]. reflexivity. }
  set (d := num_devices w).
  set (w4 := World (S d) (num_calibrations w3) (kind_of w3) (device_of w3) (fun d' k => if d' =? d then match k with Leakage => cl | Delay => ct | Antenna => ca end else slot w3 d' k)).
  assert (K4 : forall c, c < num_calibrations w -> kind_of w4 c = kind_of w c) by exact KK.
  assert (SD : slot w4 d Delay = ct) by (unfold w4; cbn [slot]; rewrite Nat.eqb_refl; reflexivity).
  assert (SA : slot w4 d Antenna = ca) by (unfold w4; cbn [slot]; rewrite Nat.eqb_refl; reflexivity).
  assert (B4 : bounds w4).
  { destruct B3 as [BS BD]. split; unfold w4; cbn [num_devices num_calibrations kind_of device_of slot].
    - intros d' k' Hd. destruct (Nat.eqb_spec d' d); [destruct k'; lia|]. apply BS. lia.
    - intros c d' Hc E. specialize (BD c d' Hc E). lia. }
  assert (O4 : owned_where (fun d' _ => d' <> d) w4).
  { intros d' k' Nd Hd. unfold w4 in *. cbn [num_devices num_calibrations kind_of device_of slot] in *. destruct (Nat.eqb_spec d' d); [contradiction|]. apply O3; [exact I|lia]. }
  destruct (configure_ok f _ w4 d Leakage l B4 O4) as (w5 & -> & B5 & O5 & L5 & D5 & K5 & S5); [unfold w4; cbn [num_devices]; lia| |].
  { intros c E. destruct (option_ok_some _ _ _ _ Wl E) as [Q1 Q2]. unfold w4. cbn [num_calibrations kind_of slot]. rewrite KK by exact Q1. rewrite Nat.eqb_refl. repeat split; lia || assumption. }
  cbn [bind].
  destruct (configure_ok f _ w5 d Delay t B5 O5) as (w6 & -> & B6 & O6 & L6 & D6 & K6 & S6); [rewrite D5; unfold w4; cbn [num_devices]; lia| |].
  { intros c E. destruct (option_ok_some _ _ _ _ Wt E) as [Q1 Q2]. assert (C4 : c < num_calibrations w4) by (unfold w4; cbn [num_calibrations]; lia).
    rewrite K5 by exact C4. rewrite S5 by discriminate. rewrite K4, SD by exact Q1. repeat split; lia || assumption. }
  cbn [bind].
  destruct (configure_ok f _ w6 d Antenna a B6 O6) as (w7 & -> & B7 & O7 & L7 & D7 & K7 & S7); [rewrite D6, D5; unfold w4; cbn [num_devices]; lia| |].
  { intros c E. destruct (option_ok_some _ _ _ _ Wa E) as [Q1 Q2]. assert (C4 : c < num_calibrations w4) by (unfold w4; cbn [num_calibrations]; lia).
    rewrite K6, K5 by lia. rewrite S6, S5 by discriminate. rewrite K4, SA by exact Q1. repeat split; lia || assumption. }
  exists w7. split; [reflexivity|]. split; [exact B7|]. eapply owned_weaken; [|exact O7]. cbv beta. intros d' k' _ _.
  destruct (Nat.eq_dec d' d) as [->|Nd]; [|auto]. destruct k'; auto 10.
Qed.

Lemma step_ok : forall f w o, bounds w -> owned_where all w -> writable w o = true -> exists w', step (5 + f) w o = Ok w' /\ bounds w' /\ owned_where all w'.
Proof.
  intros f w o B O W. destruct o as [l t a|k v|d k c|c v]; cbn [step].
  - exact (new_device_ok f w l t a B O W).
  - unfold new_calibration. destruct (allocate_facts w k) as (F1 & F2 & F3 & F4 & F5 & F6 & F7). destruct (allocate_ok all w k B O) as [B1 O1]. destruct (allocate w k) as [w1 c]. cbn [fst snd] in *.
    destruct v as [d|].
    + cbn [writable option_ok] in W. apply Nat.ltb_lt in W. destruct (set_device_moves (1 + f) w1 c (Some d) B1) as (w' & E & M & B' & L); [lia|intros d' [= <-]; lia|congruence|].
      exists w'. split; [exact E|]. split; [exact B'|]. eapply owned_weaken; [|apply (moved_owned all w1 w' c (Some d) B1 O1); [lia|exact M]]. cbv beta. auto.
    + exists w1. cbn [Nat.add set_device]. rewrite F6. auto.
  - cbn [writable] in W. apply andb_prop in W as [W1 W2]. apply Nat.ltb_lt in W1. destruct (option_ok_some w k (Some c) c W2 eq_refl) as [Hc K].
    destruct (set_slot_moves f w d k c B Hc W1 K) as (w' & E & M & M' & B' & L). exists w'. split; [exact E|]. split; [exact B'|].
    destruct (Nat.eq_dec (slot w d k) c) as [Q|Q]; [rewrite (M' Q); exact O|]. eapply owned_weaken; [|apply (moved_owned all w w' c (Some d) B O Hc (M Q))]. cbv beta. auto.
  - cbn [writable] in W. apply andb_prop in W as [W1 W2]. apply Nat.ltb_lt in W1. destruct (same_spec (device_of w c) v) as [Q|Q].
    + exists w. cbn [Nat.add set_device]. destruct (same_spec (device_of w c) v); [auto|contradiction].
    + destruct (set_device_moves (1 + f) w c v B W1) as (w' & E & M & B' & L); [intros d' ->; apply Nat.ltb_lt; exact W2|exact Q|].
      exists w'. split; [exact E|]. split; [exact B'|]. eapply owned_weaken; [|apply (moved_owned all w w' c v B O W1 M)]. cbv beta. auto.
Qed.

Lemma reachable_ok : forall f w, reachable (5 + f) w -> bounds w /\ owned_where all w.
Proof.
  intros f w R. induction R as [|w o w' R [B O] W E].
  - split; [split|]; [intros d k H|intros c d H|intros d k _ H]; exfalso; cbn [num_devices num_calibrations empty_world] in H; lia.
  - destruct (step_ok f w o B O W) as (w'' & E' & B' & O'). rewrite E in E'. injection E' as ->. auto.
Qed.
