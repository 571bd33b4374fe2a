(** C80 and C81: what a simulated device emits for its operators' transmissions and hands to its receivers. *)
From Coq Require Import List Reals ZArith Bool Arith Lia Lra.
From Coquelicot Require Import Complex.
From Verif Require Import Base BaseLemmas Cplx Cplx_Proofs Signal_Model Signal_Spec Signal_Proofs SignalOps_Proofs Dev_Model Dev_Spec Dev_Proofs.
Import ListNotations.
Local Open Scope nat_scope.

(** ** C80: output *)
(** The transmissions of all operators are superimposed, weighed by the antennas and scaled to the transmit power; what leaks is neither weighed nor
    scaled.  Operators without transmission do not matter. *)
Theorem C80_emerging_superposition : forall dv delay ts, let n := length (tx_weights dv) in
  0 < n -> (forall d, In (Some d) ts -> dense_of n d) -> (forall s, dense_of n s -> exists l, leak dv s = Ok l) ->
  exists e s l after, generate_output dv false delay ts (repeat None (length ts)) = Ok (Output [((0 + delay)%R, e)] [((0 + delay)%R, l)], after) /\
    dense_of n s /\ length (d_cols s) = list_max (map (fun d => length (d_cols d)) (present ts)) /\
    (forall t i, sample s t i = total (fun d => sample d t i) (present ts)) /\ leak dv s = Ok l /\
    (forall t i, sample e t i = (RtoC (sqrt (tx_power dv)) * (nth i (tx_weights dv) (RtoC 0) * total (fun d => sample d t i) (present ts)))%C).
Proof.
  intros dv delay ts n Hn Hts Hl. destruct (mix_spec n ts Hn Hts) as [s [after [E [Ds [Ls [Ss _]]]]]].
  destruct (Hl s Ds) as [l El]. exists (scale (RtoC (sqrt (tx_power dv))) (weigh (tx_weights dv) s)), s, l, after.
  unfold generate_output. rewrite repeat_length, Nat.eqb_refl. cbn [negb]. fold n. rewrite E. cbn [bind fst snd]. unfold simulate_output. fold n.
  rewrite (rf_pass_same n s Ds). cbn [bind]. rewrite El. cbn [bind]. split; [reflexivity|]. split; [exact Ds|]. split; [exact Ls|]. split; [exact Ss|]. split; [reflexivity|].
  intros t i. rewrite sample_scale, sample_weigh by exact Ds. rewrite Ss. reflexivity.
Qed.
Print Assumptions C80_emerging_superposition.
Definition tone (a b : R) : cdense := mkD 2 [[RtoC a; RtoC b]].
Definition two_antennas : device := Device [RtoC 1; RtoC 1] [RtoC 1; RtoC 1] 1 (fun d => Ok d).
Lemma tone_dense : forall a b, dense_of 2 (tone a b).
Proof. intros. split; [reflexivity|repeat constructor]. Qed.
Example C80_emerging_met : 0 < length (tx_weights two_antennas) /\ (forall d, In (Some d) [Some (tone 1 2); None; Some (tone 3 4)] -> dense_of 2 d) /\
  (forall s, dense_of 2 s -> exists l, leak two_antennas s = Ok l).
Proof.
  split; [cbn; lia|]. split; [|intros s _; exists s; reflexivity].
  intros d H. destruct H as [H|[H|[H|[]]]]; try discriminate; injection H as <-; apply tone_dense.
Qed.

(** All transmissions are as before the call, except for at most one: the first that has samples *)
Theorem C80_transmissions_kept : forall dv delay ts out after, let n := length (tx_weights dv) in
  0 < n -> (forall d, In (Some d) ts -> dense_of n d) -> generate_output dv false delay ts (repeat None (length ts)) = Ok (out, after) ->
  length after = length ts /\ forall k, nth_error after k <> nth_error ts k -> first_sounding ts k.
Proof.
  intros dv delay ts out after n Hn Hts G. destruct (mix_spec n ts Hn Hts) as [s [after' [E [_ [_ [_ [La Ka]]]]]]].
  unfold generate_output in G. rewrite repeat_length, Nat.eqb_refl in G. cbn [negb] in G. fold n in G. rewrite E in G. cbn [bind fst snd] in G.
  destruct (simulate_output dv s) as [p|]; [|discriminate]. cbn [bind] in G. injection G as _ <-. split; [exact La|exact Ka].
Qed.
Print Assumptions C80_transmissions_kept.
(** That one may change: the other transmissions are added into the operator's own signal *)
Theorem C80_transmissions_unchanged_refuted : ~ (forall dv delay ts out after, let n := length (tx_weights dv) in
  0 < n -> (forall d, In (Some d) ts -> dense_of n d) -> generate_output dv false delay ts (repeat None (length ts)) = Ok (out, after) -> after = ts).
Proof.
  intro H. specialize (H two_antennas 0%R [Some (tone 1 2); Some (tone 3 4)]). cbn zeta in H.
  assert (D : forall d, In (Some d) [Some (tone 1 2); Some (tone 3 4)] -> dense_of 2 d) by (intros d [E|[E|[]]]; injection E as <-; apply tone_dense).
  specialize (H _ [Some (mkD 2 [[(RtoC 1 + RtoC 3)%C; (RtoC 2 + RtoC 4)%C]]); Some (tone 3 4)] ltac:(cbn; lia) D eq_refl).
  apply (f_equal (fun l => match l with Some d :: _ => fst (sample d 0 0) | _ => 0%R end)) in H. cbn in H. lra.
Qed.
Print Assumptions C80_transmissions_unchanged_refuted.
(** With separate operators every transmission passes the hardware by itself and stays as it is *)
Theorem C80_separate_operators : forall dv delay ts sels, let n := length (tx_weights dv) in
  length sels = length ts -> (forall d, In d ts -> dense_of n d /\ exists l, leak dv d = Ok l) ->
  exists es ls, generate_output dv true delay (map Some ts) sels = Ok (Output es ls, map Some ts) /\
    Forall2 (fun d p => fst p = (0 + delay)%R /\ forall t i, sample (snd p) t i = (RtoC (sqrt (tx_power dv)) * (nth i (tx_weights dv) (RtoC 0) * sample d t i))%C) ts es /\
    Forall2 (fun d p => fst p = (0 + delay)%R /\ leak dv d = Ok (snd p)) ts ls.
Proof.
  intros dv delay ts sels n HL H. unfold generate_output. rewrite map_length, HL, Nat.eqb_refl. cbn [negb].
  assert (M : exists l, mapM (fun t => match t with Some d => simulate_output dv d | None => Raise AttributeError end) (map Some ts) = Ok l /\
    Forall2 (fun d p => fst p = weigh (tx_weights dv) d /\ leak dv d = Ok (snd p)) ts l).
  { clear HL. induction ts as [|d ts IH]; [exists []; split; [reflexivity|constructor]|].
    destruct IH as [l [E F]]; [intros d' Hd'; apply H; right; exact Hd'|]. destruct (H d (or_introl eq_refl)) as [Dd [y Ey]].
    exists ((weigh (tx_weights dv) d, y) :: l). cbn [map mapM]. unfold simulate_output. fold n. rewrite (rf_pass_same n d Dd). cbn [bind]. rewrite Ey. cbn [bind].
    unfold simulate_output in E. fold n in E. rewrite E. cbn [bind]. split; [reflexivity|]. constructor; [split; [reflexivity|exact Ey]|exact F]. }
  destruct M as [l [E F]]. rewrite E. cbn [bind]. unfold finish. eexists _, _. split; [reflexivity|].
  assert (Dts : forall d, In d ts -> dense_of n d) by (intros d Hd; apply H; exact Hd). clear E H HL. split.
  - induction F as [|d p ts l [F1 F2] F IH]; constructor.
    + split; [reflexivity|]. intros t i. cbn [fst snd]. rewrite sample_scale, F1, sample_weigh by (apply Dts; left; reflexivity). reflexivity.
    + apply IH. intros d' Hd'. apply Dts. right. exact Hd'.
  - induction F as [|d p ts l [F1 F2] F IH]; constructor; [split; [reflexivity|exact F2]|]. apply IH. intros d' Hd'. apply Dts. right. exact Hd'.
Qed.
Print Assumptions C80_separate_operators.
Example C80_separate_met : length [@None (list nat); None] = length [tone 1 2; tone 3 4] /\ forall d, In d [tone 1 2; tone 3 4] -> dense_of 2 d /\ exists l, leak two_antennas d = Ok l.
Proof. split; [reflexivity|]. intros d [<-|[<-|[]]]; (split; [apply tone_dense|eexists; reflexivity]). Qed.
(** The numbers of transmissions and operators have to match; separate operators all have to transmit *)
Theorem C80_numbers_checked : forall dv sep delay ts sels, length ts <> length sels -> generate_output dv sep delay ts sels = Raise ValueError.
Proof. intros dv sep delay ts sels H. unfold generate_output. destruct (Nat.eqb_spec (length ts) (length sels)); [contradiction|reflexivity]. Qed.
Print Assumptions C80_numbers_checked.
Theorem C80_separate_operators_must_transmit : forall dv delay a b sels, length a + S (length b) = length sels ->
  (forall d, In d a -> exists p, simulate_output dv d = Ok p) -> generate_output dv true delay (map Some a ++ None :: b) sels = Raise AttributeError.
Proof.
  intros dv delay a b sels HL H. unfold generate_output. rewrite app_length, map_length. cbn [length]. rewrite HL, Nat.eqb_refl. cbn [negb]. clear HL.
  assert (E : mapM (fun t => match t with Some d => simulate_output dv d | None => Raise AttributeError end) (map Some a ++ None :: b) = Raise AttributeError).
  { induction a as [|d a IH]; [reflexivity|]. cbn [map app mapM]. destruct (H d (or_introl eq_refl)) as [p ->]. cbn [bind].
    rewrite IH by (intros d' Hd'; apply H; right; exact Hd'). reflexivity. }
  rewrite E. reflexivity.
Qed.
Print Assumptions C80_separate_operators_must_transmit.
Example C80_must_transmit_met : length [tone 1 2] + S (length [Some (tone 3 4)]) = length [@None (list nat); None; None] /\
  forall d, In d [tone 1 2] -> exists p, simulate_output two_antennas d = Ok p.
Proof. split; [reflexivity|]. intros d [<-|[]]. eexists. reflexivity. Qed.

(** Ports selected by operators: the selection of the first transmission is ignored, so that it fails unless it has a stream for every antenna ... *)
Theorem C80_first_selection_is_ignored : forall dv delay d sel, let n := length (tx_weights dv) in d_ns d < n ->
  generate_output dv false delay [Some d] [sel] = Raise ValueError.
Proof.
  intros dv delay d sel n H. unfold generate_output. cbn [length Nat.eqb negb]. fold n. unfold mix. cbn [mix_from]. unfold mix_step at 1. cbn [nth_error current].
  unfold no_samples. cbn [d_ns d_cols length]. rewrite Nat.eqb_refl, orb_true_r. cbn [bind fst snd current nth_error]. unfold simulate_output, rf_pass. fold n.
  destruct (Nat.ltb_spec (d_ns d) n); [reflexivity|lia].
Qed.
Print Assumptions C80_first_selection_is_ignored.
Example C80_first_selection_met : d_ns (mkD 1 [[RtoC 1]]) < length (tx_weights two_antennas).
Proof. cbn. lia. Qed.
(** ... and later transmissions have to provide the ports they are sent from: one stream cannot be sent from the second port *)
Theorem C80_selected_ports_need_streams : forall dv delay d e p, let n := length (tx_weights dv) in
  0 < n -> dense_of n d -> d_cols d <> [] -> d_ns e <= p -> generate_output dv false delay [Some d; Some e] [None; Some [p]] = Raise IndexError.
Proof.
  intros dv delay d e p n Hn Hd Nd He. unfold generate_output. cbn [length Nat.eqb negb]. fold n. unfold mix. cbn [mix_from]. unfold mix_step at 1. cbn [nth_error current].
  unfold no_samples at 1. cbn [d_ns d_cols length]. rewrite Nat.eqb_refl, orb_true_r. cbn [bind]. unfold mix_step. cbn [nth_error current].
  destruct (no_samples d) eqn:Q; [apply (no_samples_spec n Hn d Hd) in Q; contradiction|].
  unfold superimpose. cbn [existsb]. destruct (Nat.leb_spec (d_ns e) p); [reflexivity|lia].
Qed.
Print Assumptions C80_selected_ports_need_streams.
Example C80_selected_ports_met : dense_of 2 (tone 1 2) /\ d_cols (tone 1 2) <> [] /\ d_ns (mkD 1 [[RtoC 1]]) <= 1.
Proof. split; [apply tone_dense|]. split; [discriminate|cbn; lia]. Qed.
(** Otherwise every later transmission is added to the first one on exactly the ports its operator selected, stream by stream.  The first operator's
    signal takes the sum if all others fit into it, and stays as it is if the next one is longer. *)
Theorem C80_selected_ports : forall dv delay d sel l, let n := length (tx_weights dv) in
  0 < n -> dense_of n d -> d_cols d <> [] ->
  (forall p, In p l -> dense_of n (fst p) /\ forall idx i, snd p = Some idx -> In i idx -> i < n) -> (forall s, dense_of n s -> exists y, leak dv s = Ok y) ->
  exists e s y after, generate_output dv false delay (Some d :: map (fun p => Some (fst p)) l) (sel :: map snd l) = Ok (Output [((0 + delay)%R, e)] [((0 + delay)%R, y)], after) /\
    leak dv s = Ok y /\
    (forall t i, sample s t i = (sample d t i + total (fun p => if selects (snd p) i then sample (fst p) t i else RtoC 0) l)%C) /\
    (forall t i, sample e t i = (RtoC (sqrt (tx_power dv)) * (nth i (tx_weights dv) (RtoC 0) * sample s t i))%C) /\
    ((forall p, In p l -> length (d_cols (fst p)) <= length (d_cols d)) -> after = Some s :: map (fun p => Some (fst p)) l) /\
    (forall p r, l = p :: r -> length (d_cols d) < length (d_cols (fst p)) -> after = Some d :: map (fun p => Some (fst p)) l).
Proof.
  intros dv delay d sel l n Hn Hd Nd Hl Hk. unfold generate_output. cbn [length]. rewrite !map_length, Nat.eqb_refl. cbn [negb]. fold n. unfold mix. cbn [mix_from]. unfold mix_step at 1. cbn [nth_error current].
  unfold no_samples at 1. cbn [d_ns d_cols length]. rewrite Nat.eqb_refl, orb_true_r. cbn [bind].
  destruct (mix_selected n l d _ Hn (Own 0) [] ltac:(left; reflexivity) Hd Nd Hl eq_refl) as [[ts m] [E [D [S [_ [A B]]]]]]. cbn [length app fst snd] in *. rewrite E. cbn [bind fst snd].
  set (s := current n ts m) in *. destruct (Hk s D) as [y Ey]. unfold simulate_output. fold n. rewrite (rf_pass_same n s D). cbn [bind]. rewrite Ey. cbn [bind].
  exists (scale (RtoC (sqrt (tx_power dv))) (weigh (tx_weights dv) s)), s, y, ts. split; [reflexivity|]. split; [exact Ey|]. split; [exact S|].
  split; [intros t i; rewrite sample_scale, sample_weigh by exact D; reflexivity|]. split; [|intros p r Hp Hlt; exact (B eq_refl p r Hp Hlt)].
  intros Hall. destruct (A eq_refl Hall) as [-> Et]. destruct ts as [|t0 ts]; [exfalso|].
  - cbn in s. destruct D as [D1 D2]. assert (L := S 0 0). clear - E. assert (K : forall sels k st st', mix_from n k sels st = Ok st' -> length (fst st') = length (fst st)).
    { induction sels as [|x sels IH]; intros k [u m] st' H; cbn [mix_from] in H; [injection H as <-; reflexivity|]. destruct (mix_step n k x (u, m)) as [st1|] eqn:Q; [|discriminate]. cbn [bind] in H. apply IH in H. rewrite H. clear H IH.
      unfold mix_step in Q. destruct (nth_error u k) as [[q|]|]; try (injection Q as <-; reflexivity). destruct (no_samples _); [injection Q as <-; reflexivity|].
      destruct (superimpose _ _ _) as [v|]; [|discriminate]. cbn [bind] in Q. injection Q as <-. destruct m; try reflexivity. destruct (fits _ _); [cbn [fst]; apply replace_length|reflexivity]. }
    apply K in E. cbn in E. discriminate.
  - cbn [tl] in Et. subst ts. unfold s. cbn [current nth_error]. f_equal. destruct t0 as [t0|]; [reflexivity|]. exfalso.
    assert (S' := S). clear - E. assert (K : forall sels k d0 u m st', mix_from n (Datatypes.S k) sels (Some d0 :: u, m) = Ok st' -> exists d1 u', fst st' = Some d1 :: u').
    { induction sels as [|x sels IH]; intros k d0 u m st' H; cbn [mix_from] in H; [injection H as <-; exists d0, u; reflexivity|]. destruct (mix_step n (Datatypes.S k) x (Some d0 :: u, m)) as [st1|] eqn:Q; [|discriminate]. cbn [bind] in H.
      assert (G : exists d1 u1 m1, st1 = (Some d1 :: u1, m1)).
      { unfold mix_step in Q. destruct (nth_error (Some d0 :: u) (Datatypes.S k)) as [[q|]|]; try (injection Q as <-; eexists _, _, _; reflexivity). destruct (no_samples _); [injection Q as <-; eexists _, _, _; reflexivity|].
        destruct (superimpose _ _ _) as [v|]; [|discriminate]. cbn [bind] in Q. injection Q as <-. destruct m as [|[|j]|]; try (eexists _, _, _; reflexivity); (destruct (fits _ _); [cbn [replace]|]; eexists _, _, _; reflexivity). }
      destruct G as [d1 [u1 [m1 ->]]]. exact (IH _ _ _ _ _ H). }
    apply K in E as [d1 [u' E]]. cbn in E. discriminate.
Qed.
Print Assumptions C80_selected_ports.
Example C80_selection_met : dense_of 2 (tone 1 2) /\ d_cols (tone 1 2) <> [] /\
  forall p, In p [(tone 3 4, Some [1]); (tone 5 6, None)] -> dense_of 2 (fst p) /\ forall idx i, snd p = Some idx -> In i idx -> i < 2.
Proof.
  split; [apply tone_dense|]. split; [discriminate|]. intros p [<-|[<-|[]]]; (split; [apply tone_dense|]); cbn; intros idx i E Hi; [|discriminate]. injection E as <-. destruct Hi as [<-|[]]. lia.
Qed.
(** A later transmission with only as many streams as its ports require is added to the first one as well, into the first operator's own signal unless it is longer *)
Theorem C80_selected_streams : forall dv delay d e k sel idx, let n := length (tx_weights dv) in
  0 < n -> dense_of n d -> d_cols d <> [] -> k <= n -> dense_of k e -> (forall i, In i idx -> i < k) -> (forall s, dense_of n s -> exists y, leak dv s = Ok y) ->
  exists x s y after, generate_output dv false delay [Some d; Some e] [sel; Some idx] = Ok (Output [((0 + delay)%R, x)] [((0 + delay)%R, y)], after) /\
    leak dv s = Ok y /\ (forall t i, sample s t i = (sample d t i + if selects (Some idx) i then sample e t i else RtoC 0)%C) /\
    (forall t i, sample x t i = (RtoC (sqrt (tx_power dv)) * (nth i (tx_weights dv) (RtoC 0) * sample s t i))%C) /\
    after = [Some (if length (d_cols e) <=? length (d_cols d) then s else d); Some e].
Proof.
  intros dv delay d e k sel idx n Hn Hd Nd Hk He Hi Hl. unfold generate_output. cbn [length Nat.eqb negb]. fold n. unfold mix. cbn [mix_from]. unfold mix_step at 1. cbn [nth_error current].
  unfold no_samples at 1. cbn [d_ns d_cols length]. rewrite Nat.eqb_refl, orb_true_r. cbn [bind]. unfold mix_step. cbn [nth_error current].
  destruct (no_samples d) eqn:Q; [apply (no_samples_spec n Hn d Hd) in Q; contradiction|].
  destruct (superimpose_fewer n k d e idx Hn Hk Hd He Hi) as [v [Ev [Dv [_ Sv]]]]. rewrite Ev. cbn [bind].
  assert (F : fits d e = (length (d_cols e) <=? length (d_cols d))). { unfold fits. destruct Hd as [-> _], He as [-> _]. destruct (Nat.leb_spec k n); [reflexivity|lia]. } rewrite F.
  destruct (Hl v Dv) as [y Ey]. destruct (length (d_cols e) <=? length (d_cols d)); cbn [replace bind fst snd current nth_error]; unfold simulate_output; fold n; rewrite (rf_pass_same n v Dv); cbn [bind]; rewrite Ey; cbn [bind]; 
    exists (scale (RtoC (sqrt (tx_power dv))) (weigh (tx_weights dv) v)), v, y; eexists; (split; [reflexivity|]); (split; [exact Ey|]); (split; [exact Sv|]); (split; [intros t i; rewrite sample_scale, sample_weigh by exact Dv; reflexivity|reflexivity]).
Qed.
Print Assumptions C80_selected_streams.
Example C80_selected_streams_met : dense_of 2 (tone 1 2) /\ 1 <= 2 /\ dense_of 1 (mkD 1 [[RtoC 1]]) /\ forall i, In i [0] -> i < 1.
Proof. split; [apply tone_dense|]. split; [lia|]. split; [split; [reflexivity|repeat constructor]|]. intros i [<-|[]]. lia. Qed.
(** So a transmission over selected ports does not emerge from these ports *)
Theorem C80_port_selection_refuted : ~ (forall dv delay d p, let n := length (tx_weights dv) in p < n -> dense_of 1 d -> (forall s, dense_of n s -> exists l, leak dv s = Ok l) ->
  exists e ls after, generate_output dv false delay [Some d] [Some [p]] = Ok (Output [((0 + delay)%R, e)] ls, after) /\
    forall t, sample e t p = (RtoC (sqrt (tx_power dv)) * (nth p (tx_weights dv) (RtoC 0) * sample d t 0))%C).
Proof.
  intro H. destruct (H two_antennas 0%R (mkD 1 [[RtoC 1]]) 1 ltac:(cbn; lia)) as [e [ls [after [E _]]]].
  - split; [reflexivity|repeat constructor].
  - intros s _. exists s. reflexivity.
  - rewrite C80_first_selection_is_ignored in E by (cbn; lia). discriminate.
Qed.
Print Assumptions C80_port_selection_refuted.
(** Streams in excess of the antennas are dropped without notice *)
Theorem C80_excess_streams_are_dropped : forall dv delay d sel l, let n := length (tx_weights dv) in 
  n <= d_ns d -> leak dv (mkD n (map (firstn n) (d_cols d))) = Ok l ->
  generate_output dv false delay [Some d] [sel] =
    Ok (Output [((0 + delay)%R, scale (RtoC (sqrt (tx_power dv))) (weigh (tx_weights dv) (mkD n (map (firstn n) (d_cols d)))))] [((0 + delay)%R, l)], [Some d]).
Proof.
  intros dv delay d sel l n H El. unfold generate_output. cbn [length Nat.eqb negb]. fold n. unfold mix. cbn [mix_from]. unfold mix_step at 1. cbn [nth_error current].
  unfold no_samples. cbn [d_ns d_cols length]. rewrite Nat.eqb_refl, orb_true_r. cbn [bind fst snd current nth_error]. unfold simulate_output, rf_pass. fold n.
  destruct (Nat.ltb_spec (d_ns d) n); [lia|]. cbn [bind]. rewrite El. reflexivity.
Qed.
Print Assumptions C80_excess_streams_are_dropped.
Example C80_excess_met : length (tx_weights two_antennas) <= d_ns (mkD 3 [[RtoC 1; RtoC 2; RtoC 3]]) /\
  leak two_antennas (mkD 2 (map (firstn 2) [[RtoC 1; RtoC 2; RtoC 3]])) = Ok (tone 1 2).
Proof. split; [cbn; lia|reflexivity]. Qed.

(** ** C81: reception *)
(** A device either receives the weighed sum of all impinging signals, each delayed as it impinges, or fails *)
Theorem C81_reception : forall dv l, let n := length (rx_weights dv) in 0 < n -> Forall (fun p => well_formed n (fst p) /\ num_streams (fst p) = n) l ->
  receive dv l None = Raise TypeError \/
  exists y, receive dv l None = Ok (Dense y) /\ dense_of n y /\
    forall t i, sample y t i = (nth i (rx_weights dv) (RtoC 0) * total (fun p => impinging_at n p t i) l)%C.
Proof.
  intros dv l n Hn HF. destruct (mixed_spec n l Hn HF) as [s [E [W [N [Ne V]]]]]. unfold receive. fold n. rewrite E. cbn [bind].
  destruct (length s <? 2).
  - right. destruct (to_dense_samples n s W Ne) as [d [Ed [Dd [_ Sd]]]]. rewrite Ed. cbn [bind]. rewrite (proj1 Dd), Nat.eqb_refl. cbn [negb].
    exists (weigh (rx_weights dv) d). split; [reflexivity|]. split.
    + split; [exact (proj1 Dd)|]. unfold weigh. cbn [d_cols]. apply Forall_forall. intros c Hc. apply in_map_iff in Hc as [c' [<- Hc']]. rewrite map2_length.
      destruct Dd as [_ Dd]. rewrite Forall_forall in Dd. rewrite (Dd c' Hc'). fold n. lia.
    + intros t i. rewrite sample_weigh by exact Dd. rewrite Sd, V. reflexivity.
  - left. rewrite N, Nat.eqb_refl. cbn [negb]. destruct (Nat.eqb_spec n 0); [lia|reflexivity].
Qed.
Print Assumptions C81_reception.
(** It receives dense signals none of which starts after the end of all signals before it, for instance simultaneous ones *)
Theorem C81_continuous_reception : forall dv l, let n := length (rx_weights dv) in 0 < n -> continuous n 0 l ->
  exists y, receive dv l None = Ok (Dense y) /\ dense_of n y /\
    forall t i, sample y t i = (nth i (rx_weights dv) (RtoC 0) * total (fun p => impinging_at n p t i) l)%C.
Proof.
  intros dv l n Hn Hc. destruct (C81_reception dv l Hn (continuous_wf n l 0 Hc)) as [E|H]; [|exact H]. exfalso.
  destruct (continuous_mixed n l Hn Hc) as [b Eb]. unfold receive in E. fold n in E. rewrite Eb in E. cbn [bind length Nat.ltb Nat.leb] in E.
  destruct (mixed_spec n l Hn (continuous_wf n l 0 Hc)) as [s [E2 [W [N [Ne V]]]]]. rewrite Eb in E2. injection E2 as <-.
  destruct (to_dense_samples n [b] W Ne) as [d [Ed [Dd _]]]. rewrite Ed in E. cbn [bind] in E. rewrite (proj1 Dd), Nat.eqb_refl in E. discriminate.
Qed.
Print Assumptions C81_continuous_reception.
(** Three signals, the second one starting before the trigger, the third one when the first one ends *)
Example C81_continuous_met : continuous 2 0 [(Dense (mkD 2 [[RtoC 1; RtoC 2]; [RtoC 3; RtoC 4]]), 0%Z); (Dense (tone 1 2), (-1)%Z); (Dense (tone 5 6), 2%Z)].
Proof. cbn. repeat split; try lia; eexists; split; try reflexivity; repeat split; repeat constructor. Qed.
(** Leaked signals are added as they are *)
Theorem C81_leakage_is_added : forall dv l x, let n := length (rx_weights dv) in 0 < n -> continuous n 0 l -> dense_of n x ->
  exists y, receive dv l (Some x) = Ok (Dense y) /\
    forall t i, sample y t i = (nth i (rx_weights dv) (RtoC 0) * total (fun p => impinging_at n p t i) l + sample x t i)%C.
Proof.
  intros dv l x n Hn Hc Dx. destruct (C81_continuous_reception dv l Hn Hc) as [y [E [Dy V]]]. fold n in Dy, V.
  unfold receive in *. fold n in E |- *. destruct (mixed_signal n l) as [s|]; [|discriminate]. cbn [bind] in *.
  destruct (length s <? 2).
  - destruct (to_dense C (RtoC 0) s) as [d|]; [|discriminate]. cbn [bind] in *. destruct (negb (d_ns d =? n)); [discriminate|]. injection E as E. rewrite E.
    destruct (no_samples y) eqn:Q.
    + exists x. unfold dn_superimpose. unfold no_samples in Q. rewrite Q. split; [reflexivity|]. intros t i. rewrite <- V.
      rewrite (sample_empty y) by (apply (no_samples_spec n Hn y Dy); exact Q). symmetry. apply Cplus_0_l.
    + assert (Ny : d_cols y <> []) by (intro K; apply (no_samples_spec n Hn y Dy) in K; congruence).
      destruct (superimpose_sums n y x Hn Dy Dx Ny) as [r [Er [_ [_ Sr]]]]. unfold superimpose in Er. 
      destruct (dn_superimpose C (RtoC 0) Cplus y (Dense x) 0) as [[r'|]|]; cbn [bind] in Er; try discriminate. injection Er as ->.
      exists r. split; [reflexivity|]. intros t i. rewrite Sr, V. reflexivity.
  - destruct (negb (sp_ns s =? n)); [discriminate|]. destruct (n =? 0); discriminate.
Qed.
Print Assumptions C81_leakage_is_added.
(** Signals separated by silence cannot be received at all *)
Theorem C81_signals_with_a_gap_raise : forall dv x y d, let n := length (rx_weights dv) in 0 < n -> dense_of n x -> dense_of n y ->
  d_cols x <> [] -> d_cols y <> [] -> (Z.of_nat (length (d_cols x)) < d)%Z -> forall leaked, receive dv [(Dense x, 0%Z); (Dense y, d)] leaked = Raise TypeError.
Proof.
  intros dv x y d n Hn Hx Hy Nx Ny Hd leaked.
  assert (HF : Forall (fun p => well_formed n (fst p) /\ num_streams (fst p) = n) [(Dense x, 0%Z); (Dense y, d)]).
  { constructor; [split; [apply dense_wf; exact Hx|exact (proj1 Hx)]|]. constructor; [split; [apply dense_wf; exact Hy|exact (proj1 Hy)]|constructor]. }
  destruct (mixed_spec n _ Hn HF) as [s [E [W [N [Ne V]]]]].
  unfold receive. fold n. rewrite E. cbn [bind]. pose proof (gap_blocks n x y d s Hn Hx Hy Nx Ny Hd E) as L. destruct (Nat.ltb_spec (length s) 2); [lia|].
  rewrite N, Nat.eqb_refl. cbn [negb]. destruct (Nat.eqb_spec n 0); [lia|reflexivity].
Qed.
Print Assumptions C81_signals_with_a_gap_raise.
Example C81_gap_met : dense_of 2 (tone 1 2) /\ d_cols (tone 1 2) <> [] /\ (Z.of_nat (length (d_cols (tone 1 2))) < 2)%Z.
Proof. split; [apply tone_dense|]. split; [discriminate|cbn; lia]. Qed.
Theorem C81_reception_refuted : ~ (forall dv l, let n := length (rx_weights dv) in 0 < n -> Forall (fun p => well_formed n (fst p) /\ num_streams (fst p) = n) l ->
  exists y, receive dv l None = Ok y).
Proof.
  intro H. destruct (H two_antennas [(Dense (tone 1 2), 0%Z); (Dense (tone 1 2), 2%Z)]) as [y E]; [cbn; lia| |].
  - repeat constructor; cbn; try lia.
  - rewrite C81_signals_with_a_gap_raise in E; try discriminate; try apply tone_dense; cbn; lia.
Qed.
Print Assumptions C81_reception_refuted.
(** Nothing impinging: silence of no samples *)
Theorem C81_nothing_impinging : forall dv, 0 < length (rx_weights dv) -> exists y, receive dv [] None = Ok (Dense y) /\ d_cols y = [].
Proof.
  intros dv H. unfold receive, mixed_signal. cbn [mix_impinging bind]. set (n := length (rx_weights dv)).
  destruct (to_dense_samples n _ (start_wf n) ltac:(discriminate)) as [d [E [D [L _]]]]. rewrite E. cbn [bind from_dense length Nat.eqb Nat.ltb Nat.leb].
  rewrite (proj1 D), Nat.eqb_refl. cbn [negb]. eexists. split; [reflexivity|]. unfold weigh. cbn [d_cols]. destruct (d_cols d); [reflexivity|discriminate L].
Qed.
Print Assumptions C81_nothing_impinging.
