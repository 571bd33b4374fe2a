(** Properties of symbol mapping and detection (C14, C15, C16, C58). *)
From Coq Require Import Reals List Arith Bool Lia Lra.
From Verif Require Import Base BaseLemmas Qam_Model QamPam_Proofs Qam_Spec Qam_Proofs QamMap_Proofs QamLink_Proofs.
Import ListNotations.
Open Scope R_scope.

(** ** C14 *)
(** Which mappers exist. *)
Theorem C14_supported_orders ord soft cx :
  (exists m, make_mapper ord None soft cx = Ok m) <->
  In ord (if cx then [2; 4; 8; 16; 64; 256]%nat else [2; 4; 8; 16]%nat).
Proof.
  split.
  - intros [m H]. unfold make_mapper in H. destruct (_ || _); [discriminate|]. rewrite !andb_true_r in H. destruct cx; cbn [negb andb] in H.
    + destruct (listed ord mapping_available) eqn:E; [|discriminate]. unfold listed in E. apply existsb_exists in E. destruct E as [x [Hx E]].
      apply Nat.eqb_eq in E. subst x. cbn [In mapping_available] in *. tauto.
    + destruct (listed ord mapping_available_pam) eqn:E; [|discriminate]. unfold listed in E. apply existsb_exists in E. destruct E as [x [Hx E]].
      apply Nat.eqb_eq in E. subst x. exact Hx.
  - assert (T : forall o, (o =? 0)%nat = false -> Nat.land o (o - 1) = 0%nat -> listed o (if cx then mapping_available else mapping_available_pam) = true ->
      exists m, make_mapper o None soft cx = Ok m).
    { intros o E1 E2 E3. unfold make_mapper. rewrite E1, E2, Nat.eqb_refl. cbn [negb orb]. destruct cx; rewrite E3; cbn [negb andb]; eauto. }
    destruct cx; intro H; cbn [In] in H; repeat (destruct H as [<-|H]; [apply T; vm_compute; reflexivity|]); destruct H.
Qed.
Print Assumptions C14_supported_orders.

(** Sequences of whole symbols are mapped, all others are rejected. *)
Theorem C14_whole_symbols_are_mapped ord mp soft cx m bits : make_mapper ord mp soft cx = Ok m -> (0 < bps m)%nat ->
  ((length bits mod bps m = 0)%nat /\ exists xs, get_symbols m bits = Ok xs /\ (length xs * bps m = length bits)%nat) \/
  ((length bits mod bps m <> 0)%nat /\ get_symbols m bits = Raise ValueError).
Proof.
  intros H P. pose proof (Nat.div_mod (length bits) (bps m) ltac:(lia)) as E. destruct (Nat.eq_dec (length bits mod bps m) 0) as [D|D].
  - left. split; [exact D|]. destruct (get_symbols_blocks _ _ _ _ _ bits H P D) as [xs [Ex [L _]]]. exists xs. split; [exact Ex|]. rewrite L. lia.
  - right. split; [exact D|]. unfold get_symbols. rewrite (proj2 (Nat.eqb_neq (bps m) 0)) by lia.
    rewrite (proj2 (Nat.eqb_neq _ _)) by lia. reflexivity.
Qed.
Print Assumptions C14_whole_symbols_are_mapped.

(** Hard detection finds the labels of the nearest symbols. *)
Theorem C14_hard_detection_finds_nearest_symbols ord mp cx m rx nvs bs : make_mapper ord mp false cx = Ok m ->
  length rx = length nvs -> Forall (fun v => 0 < v) nvs -> Forall2 (only_nearest m) rx bs ->
  detect_bits m rx nvs = Ok (Hard (concat bs)).
Proof. apply hard_any. Qed.
Print Assumptions C14_hard_detection_finds_nearest_symbols.

(** Built-in constellations have different symbols for different labels; so do custom ones without repeated points. *)
Theorem C14_labels_are_distinct ord soft cx m : make_mapper ord None soft cx = Ok m -> distinct m.
Proof. apply distinct_any. Qed.
Print Assumptions C14_labels_are_distinct.
Theorem C14_custom_labels_are_distinct ord l soft cx m : make_mapper ord (Some l) soft cx = Ok m ->
  (exists z, In z l /\ z <> (0, 0)) -> (distinct m <-> NoDup l).
Proof. intros H [z [Hz NZ]]. apply (distinct_custom _ _ _ _ _ H). exact (energy_pos l z Hz NZ). Qed.
Print Assumptions C14_custom_labels_are_distinct.

(** Mapped bits are detected again. *)
Theorem C14_detection_inverts_mapping ord mp cx m bits xs nvs : make_mapper ord mp false cx = Ok m -> distinct m ->
  get_symbols m bits = Ok xs -> length nvs = length xs -> Forall (fun v => 0 < v) nvs -> detect_bits m xs nvs = Ok (Hard bits).
Proof.
  intros H D G L V. destruct (Nat.eq_dec (bps m) 0) as [Z|NZ]; [unfold get_symbols in G; rewrite Z in G; discriminate|].
  destruct (C14_whole_symbols_are_mapped _ _ _ _ _ bits H ltac:(lia)) as [[M _]|[_ E]]; [|rewrite E in G; discriminate].
  destruct (get_symbols_blocks _ _ _ _ _ bits H ltac:(lia) M) as [xs' [Ex [_ [F C]]]]. rewrite G in Ex. injection Ex as <-.
  rewrite (C14_hard_detection_finds_nearest_symbols _ _ _ m xs nvs (blocks_of (length bits / bps m) (bps m) bits) H ltac:(congruence) V); [rewrite C; reflexivity|].
  clear -F D. induction F as [|b x bs xs Hb _ IH]; constructor; [apply only_nearest_self; assumption|exact IH].
Qed.
Print Assumptions C14_detection_inverts_mapping.

(** They are detected as long as the noise stays below half of the smallest distance. *)
Theorem C14_detection_tolerates_noise ord mp cx m bits xs rx nvs e : make_mapper ord mp false cx = Ok m ->
  (forall b b' s s', labels m b s -> labels m b' s' -> b <> b' -> 4 * e <= dist2 s s') ->
  get_symbols m bits = Ok xs -> Forall2 (fun x y => dist2 y x < e) xs rx ->
  length nvs = length xs -> Forall (fun v => 0 < v) nvs -> detect_bits m rx nvs = Ok (Hard bits).
Proof.
  intros H D G N L V. destruct (Nat.eq_dec (bps m) 0) as [Z|NZ]; [unfold get_symbols in G; rewrite Z in G; discriminate|].
  destruct (C14_whole_symbols_are_mapped _ _ _ _ _ bits H ltac:(lia)) as [[M _]|[_ E]]; [|rewrite E in G; discriminate].
  destruct (get_symbols_blocks _ _ _ _ _ bits H ltac:(lia) M) as [xs' [Ex [_ [F C]]]]. rewrite G in Ex. injection Ex as <-.
  pose proof (Forall2_len _ _ _ N) as LN.
  rewrite (C14_hard_detection_finds_nearest_symbols _ _ _ m rx nvs (blocks_of (length bits / bps m) (bps m) bits) H ltac:(congruence) V);
    [rewrite C; reflexivity|].
  clear -F N D. revert rx N. induction F as [|b x bs xs Hb _ IH]; intros rx N; inversion N as [|? y ? rx' Hy N']; subst; constructor;
    [apply (only_nearest_noise m e y b x D Hb Hy)|apply IH; exact N'].
Qed.
Print Assumptions C14_detection_tolerates_noise.

(** Orders of one cannot be used. *)
Theorem C14_single_points_carry_no_bits l soft cx m bits : make_mapper 1 (Some l) soft cx = Ok m ->
  get_symbols m bits = Raise ZeroDivisionError.
Proof.
  intro H. destruct (make_custom _ _ _ _ _ H) as [_ [_ [_ [_ E]]]]. unfold get_symbols. rewrite E. reflexivity.
Qed.
Print Assumptions C14_single_points_carry_no_bits.

Example C14_example : exists m, make_mapper 4 None false true = Ok m /\ bps m = 2%nat /\
  get_symbols m [false; true; true; true] = Ok [(1 / sqrt 2, -1 / sqrt 2); (-1 / sqrt 2, -1 / sqrt 2)] /\
  get_symbols m [false; true; true] = Raise ValueError /\
  exists m', make_mapper 2 (Some [(1, 0); (0, 2)]) false true = Ok m' /\ make_mapper 32 None false true = Raise ValueError.
Proof.
  eexists. split; [reflexivity|]. split; [reflexivity|]. split.
  - unfold get_symbols. cbn [bps mapping order is_complex length Nat.div Nat.divmod fst Nat.mul Nat.add Nat.eqb negb].
    change (Nat.log2 4) with 2%nat. cbn. unfold qam_symbol. cbn. repeat f_equal; lra.
  - split; [reflexivity|]. eexists. split; reflexivity.
Qed.

(** ** C15 *)
(** There is a smallest distance, reached by some pair, and pairs at this distance differ in one bit. *)
Theorem C15_neighbours_differ_in_one_bit ord soft cx m : make_mapper ord None soft cx = Ok m -> exists d, 0 < d /\
  (forall b b' s s', labels m b s -> labels m b' s' -> b <> b' -> d <= dist2 s s' /\ (dist2 s s' = d -> hamming b b' = 1%nat)) /\
  exists b b' s s', labels m b s /\ labels m b' s' /\ b <> b' /\ dist2 s s' = d.
Proof. apply gray_any. Qed.
Print Assumptions C15_neighbours_differ_in_one_bit.
Example C15_example : exists m m', make_mapper 64 None true true = Ok m /\ make_mapper 8 None false true = Ok m' /\ bps m = 6%nat /\ bps m' = 3%nat.
Proof. exists (mkMapper 64 6 true None true), (mkMapper 8 3 true (Some psk8_map) false). do 3 (split; [reflexivity|]). reflexivity. Qed.

(** ** C16 *)
(** Soft outputs are scaled differences of squared distances to the nearest symbols with either bit. *)
Theorem C16_soft_outputs_are_max_log ord cx m rx nvs : make_mapper ord None true cx = Ok m -> ~ (ord = 8%nat /\ cx = true) ->
  length rx = length nvs ->
  exists l, detect_bits m rx nvs = Ok (Soft l) /\ length l = (length rx * bps m)%nat /\
    forall i k y v, nth_error rx i = Some y -> nth_error nvs i = Some v -> (k < bps m)%nat ->
      exists s0 s1, nearest m y k false s0 /\ nearest m y k true s1 /\
        nth_error l (i * bps m + k) = Some (soft_constant m * (dist2 y s0 - dist2 y s1) / v).
Proof.
  intros H NP HL. destruct (builtin_config _ _ _ _ H) as [Es [_ [_ [[E8 [Ec _]]|[o [q B]]]]]]; [destruct (NP (conj E8 Ec))|].
  destruct (builtin_soft m o q B rx nvs HL) as [l [El R]]. exists l. split; [|exact R]. unfold detect_bits. rewrite El. cbn [bind]. rewrite Es. reflexivity.
Qed.
Print Assumptions C16_soft_outputs_are_max_log.

(** Hard decisions are the signs of the soft outputs. *)
Theorem C16_hard_decisions_are_signs m rx nvs l : detect_bits (with_output m true) rx nvs = Ok (Soft l) ->
  detect_bits (with_output m false) rx nvs = Ok (Hard (map (fun v => if Rlt_dec 0 v then true else false) l)).
Proof.
  unfold detect_bits. intro H. apply bind_ok in H. destruct H as [l' [El H]]. cbn [with_output soft_output] in H. injection H as <-.
  assert (K : soft_values (with_output m false) rx nvs = Ok l').
  { unfold soft_values in *. cbn [with_output mapping soft_output order is_complex] in *. destruct (mapping m); [discriminate|exact El]. }
  rewrite K. cbn [bind with_output soft_output]. f_equal. f_equal. apply map_ext. intro v. unfold rgt, rle.
  destruct (Rle_dec v 0), (Rlt_dec 0 v); try reflexivity; lra.
Qed.
Print Assumptions C16_hard_decisions_are_signs.

(** Constellations given as tables, 8-PSK among them, have no soft outputs. *)
Theorem C16_tables_have_no_soft_outputs ord mp cx m rx nvs : make_mapper ord mp true cx = Ok m ->
  (detect_bits m rx nvs = Raise RuntimeError <-> mp <> None \/ (ord = 8%nat /\ cx = true)) \/ length rx <> length nvs.
Proof.
  intro H. destruct (Nat.eq_dec (length rx) (length nvs)) as [HL|]; [|right; assumption]. left. destruct mp as [l|].
  - split; [intros _; left; discriminate|]. intros _. destruct (make_custom _ _ _ _ _ H) as [E [_ [_ [Es _]]]].
    unfold detect_bits, soft_values. rewrite E, Es. reflexivity.
  - destruct (builtin_config _ _ _ _ H) as [Es [_ [_ [[E8 [Ec [Em _]]]|[o [q B]]]]]].
    + split; [intros _; right; auto|]. intros _. unfold detect_bits, soft_values. rewrite Em, Es. reflexivity.
    + destruct (builtin_soft m o q B rx nvs HL) as [l [El _]]. unfold detect_bits. rewrite El. cbn [bind]. rewrite Es. split; [discriminate|].
      intros [K|[-> ->]]; [contradiction|]. injection H as <-. pose proof (bi_mapping _ _ _ B) as K. discriminate K.
Qed.
Print Assumptions C16_tables_have_no_soft_outputs.
Example C16_example : exists m, make_mapper 256 None true true = Ok m /\ soft_constant m = 1 /\
  exists m2, make_mapper 2 None true true = Ok m2 /\ soft_constant m2 = 1 / 2 /\
  detect_bits m2 [(3, 0)] [2] = Ok (Soft [-2 * 3 / 2]).
Proof. exists (mkMapper 256 8 true None true). do 2 (split; [reflexivity|]). exists (mkMapper 2 1 true None true). do 2 (split; [reflexivity|]). reflexivity. Qed.

(** ** C58 *)
Lemma value_weight b : value b = weight b.
Proof.
  induction b as [|x b IH] using rev_ind; [reflexivity|]. rewrite value_snoc, IH. clear IH.
  assert (K : forall c, weight (c ++ [x]) = (2 * weight c + (if x then 1 else 0))%nat).
  { induction c as [|y c IH]; [cbn; destruct x; reflexivity|]. cbn [app weight]. rewrite IH, app_length. cbn [length].
    replace (length c + 1)%nat with (S (length c)) by lia. cbn [Nat.pow]. destruct y, x; lia. }
  rewrite K. destruct x; reflexivity.
Qed.
(** The listed mapping holds the symbol of each label at the label's binary value. *)
Theorem C58_mapping_is_listed_by_label ord mp soft cx m : make_mapper ord mp soft cx = Ok m ->
  exists l, get_mapping m = Ok l /\ length l = ord /\
    forall b s, labels m b s <-> length b = bps m /\ nth_error l (weight b) = Some s.
Proof.
  intro H. destruct (get_mapping_labels _ _ _ _ _ H) as [l [El [L G]]]. exists l. split; [exact El|].
  assert (O : ord = (2 ^ bps m)%nat).
  { unfold make_mapper in H. destruct ((ord =? 0)%nat || negb (Nat.land ord (ord - 1) =? 0)%nat) eqn:E; [discriminate|].
    apply orb_false_iff in E. destruct E as [E1 E2]. apply Nat.eqb_neq in E1. apply negb_false_iff, Nat.eqb_eq in E2.
    pose proof (power_of_two ord ltac:(lia) E2) as P.
    destruct (_ && _) in H; [discriminate|]. destruct (_ && _) in H; [discriminate|]. destruct (match mp with Some _ => _ | None => _ end) in H; [discriminate|].
    injection H as <-. exact P. }
  split; [congruence|]. intros b s. rewrite <- value_weight. apply G.
Qed.
Print Assumptions C58_mapping_is_listed_by_label.

Lemma mean_energy_eq l : mean_energy l = energy l.
Proof.
  unfold mean_energy, energy. f_equal. induction l as [|z l IH]; [reflexivity|]. cbn [fold_right map]. rewrite sum_cons, <- IH. reflexivity.
Qed.
(** Symbols have unit mean energy. *)
Theorem C58_unit_mean_energy ord mp soft cx m l : make_mapper ord mp soft cx = Ok m ->
  match mp with Some p => exists z, In z p /\ z <> (0, 0) | None => True end ->
  get_mapping m = Ok l -> mean_energy l = 1.
Proof.
  intros H Z G. rewrite mean_energy_eq. destruct mp as [p|].
  - destruct Z as [z [Hz NZ]]. destruct (make_custom _ _ _ _ _ H) as [E _]. unfold get_mapping in G. rewrite E in G. injection G as <-.
    apply energy_normalized, (energy_pos p z Hz NZ).
  - destruct (builtin_config _ _ _ _ H) as [_ [_ [_ [[_ [_ [Em _]]]|[o [q B]]]]]].
    + unfold get_mapping in G. rewrite Em in G. injection G as <-. apply energy_psk8.
    + apply (energy_builtin m o q l B G).
Qed.
Print Assumptions C58_unit_mean_energy.
(** Custom constellations keep the shape they are given. *)
Theorem C58_custom_points_are_scaled ord p soft cx m : make_mapper ord (Some p) soft cx = Ok m ->
  (exists z, In z p /\ z <> (0, 0)) -> exists c, 0 < c /\ get_mapping m = Ok (map (fun z => (c * fst z, c * snd z)) p).
Proof.
  intros H [z [Hz NZ]]. destruct (make_custom _ _ _ _ _ H) as [E _]. pose proof (energy_pos p z Hz NZ) as P.
  assert (PS : 0 < sqrt (energy p)) by (apply sqrt_lt_R0; exact P). exists (/ sqrt (energy p)). split; [apply Rinv_0_lt_compat; exact PS|].
  unfold get_mapping. rewrite E. unfold normalized. f_equal. apply map_ext. intro a. unfold Rdiv. f_equal; ring.
Qed.
Print Assumptions C58_custom_points_are_scaled.
Example C58_example : exists m, make_mapper 2 (Some [(3, 0); (0, 3)]) false true = Ok m /\ (exists z, In z [(3, 0); (0, 3)] /\ z <> (0, 0)) /\
  weight [true; false; true] = 5%nat.
Proof. eexists. split; [reflexivity|]. split; [|reflexivity]. exists (3, 0). split; [left; reflexivity|]. intro K. injection K. lra. Qed.
