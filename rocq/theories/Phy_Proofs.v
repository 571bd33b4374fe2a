(** Proofs about physical devices. *)
From Coq Require Import List Arith ZArith Bool Lia.
From Verif Require Import Base BaseLemmas Phy_Model Phy_Spec.
Import ListNotations.
Local Open Scope nat_scope.

Section P.
Variables (A P : Type) (zero : A) (add : A -> A -> A) (rt : routines A P).
Notation M := (signal A * signal A)%type.
Notation hwl := (loop_hardware A).
Notation dev := (device M A P).
Notation stepl := (step A P M zero add hwl rt).
Notation runl := (run A P M zero add hwl rt).

Definition fixed (c c' : settings) : Prop :=
  d_rate c' = d_rate c /\ d_carrier c' = d_carrier c /\ d_tx c' = d_tx c /\ d_rx c' = d_rx c /\ d_receivers c' = d_receivers c.
Lemma fixed_refl c : fixed c c. Proof. unfold fixed; auto. Qed.
Lemma fixed_trans a b c : fixed a b -> fixed b c -> fixed a c.
Proof. unfold fixed; intros (E1&E2&E3&E4&E5) (F1&F2&F3&F4&F5); repeat split; congruence. Qed.

Lemma step_fixed (H : Type) (hw : hardware A H) (d d' : device H A P) k a :
  step A P H zero add hw rt d k = (d', a) -> fixed (d_settings d) (d_settings d').
Proof.
  destruct k; cbn [step]; intros E.
  - unfold transmit in E. destruct (mixed_signal _ _ _ _ _ _) as [m|e].
    + destruct (hw_upload hw (d_hw d) m) as [[h m'] u]. injection E as <- <-. apply fixed_refl.
    + injection E as <- <-. apply fixed_refl.
  - injection E as <- <-. apply fixed_refl.
  - destruct (trigger_direct _ _ _ _ _ _ _ _) as [[d1 s1] r] eqn:T. injection E as <- <-.
    unfold trigger_direct in T. cbv zeta in T.
    destruct (negb _); [injection T as <- <- <-; apply fixed_refl|].
    destruct (negb _); [injection T as <- <- <-; apply fixed_refl|].
    destruct (if calibrate then _ else _) as [x|e]; [|injection T as <- <- <-; apply fixed_refl].
    destruct (hw_upload _ _ _) as [[h m'] u]. injection T as <- <- <-. apply fixed_refl.
  - injection E as <- <-. apply fixed_refl.
  - injection E as <- <-. apply fixed_refl.
  - destruct (estimate_noise_power _ _ _ _ _ _ _ _ _) as [d1 r] eqn:N. injection E as <- <-.
    unfold estimate_noise_power in N. cbv zeta in N.
    destruct (trigger_direct _ _ _ _ _ _ _ _) as [[d2 s1] r2] eqn:T.
    assert (F : fixed (d_settings d) (d_settings d2)).
    { unfold trigger_direct in T. cbv zeta in T.
      destruct (negb _); [injection T as <- <- <-; apply fixed_refl|].
      destruct (negb _); [injection T as <- <- <-; apply fixed_refl|].
      destruct (correct_transmission _ _) as [x|e]; [|injection T as <- <- <-; apply fixed_refl].
      destruct (hw_upload _ _ _) as [[h m'] u]. injection T as <- <- <-. apply fixed_refl. }
    destruct r2; injection N as <- <-; [destruct cache; exact F|exact F].
  - injection E as <- <-. unfold fixed; cbn; auto.
  - injection E as <- <-. unfold fixed; cbn; auto.
  - unfold set_bandwidth in E. destruct (w <? 0)%Z; injection E as <- <-; unfold fixed; cbn; auto.
Qed.

(** One call on a device that receives what it sends *)
Lemma direct_loop (d : dev) s b :
  let '(d', s', r) := trigger_direct A P M hwl rt d s b in
  match r with
  | Raise _ => d' = d /\ s' = s
  | Ok v => d_settings d' = d_settings d /\ recent_upload d' = recent_upload d /\ noise_power d' = noise_power d /\
            s_carrier s = d_carrier (d_settings d) /\ s_rate s = d_rate (d_settings d) /\
            exists t, sent A (correct_transmission rt) s b t /\ d_hw d' = (t, t) /\ s' = t /\ v = if b then remove_leakage rt t t else t
  end.
Proof.
  unfold trigger_direct. cbv zeta.
  destruct (s_carrier s =? d_carrier (d_settings d))%Z eqn:EC; cbn [negb]; [|split; reflexivity].
  destruct (s_rate s =? d_rate (d_settings d))%Z eqn:ER; cbn [negb]; [|split; reflexivity].
  apply Z.eqb_eq in EC. apply Z.eqb_eq in ER.
  destruct b.
  - destruct (correct_transmission rt (s_streams s)) as [x|e] eqn:E; [|split; reflexivity].
    cbn. repeat split; try assumption. eexists. split; [exists x; split; [exact E|reflexivity]|repeat split; reflexivity].
  - cbn. repeat split; try assumption. destruct s as [r q x]. eexists. split; [reflexivity|repeat split; reflexivity].
Qed.

Lemma step_loop (d d' : dev) k a :
  stepl d k = (d', a) ->
  (refused A P a -> d' = d) /\
  (~ refused A P a ->
   (forall l m', memories A P zero (d_settings d) (correct_transmission rt) (d_hw d') l m' ->
                 memories A P zero (d_settings d) (correct_transmission rt) (d_hw d) ((k, a) :: l) m') /\
   recent_upload d' = match k, a with CTransmit _ _, ATransmission _ _ (Ok m) => Some m | _, _ => recent_upload d end).
Proof.
  destruct k; cbn [step]; intros E.
  - unfold transmit in E. destruct (mixed_signal _ _ _ _ _ _) as [m|e].
    + cbn in E. injection E as <- <-. split; [intros []|]. intros _. split; [|reflexivity].
      intros l m' HM. apply M_transmit. exact HM.
    + injection E as <- <-. split; [reflexivity|]. intros N. exfalso; apply N; exact I.
  - injection E as <- <-. split; [intros []|]. intros _. split; [|reflexivity].
    intros l m' HM. apply M_trigger. exact HM.
  - pose proof (direct_loop d s calibrate) as L.
    destruct (trigger_direct _ _ _ _ _ _ _ _) as [[d1 s1] r] eqn:T. injection E as <- <-.
    destruct r as [v|e].
    + destruct L as (_&L2&_&_&_&t&L4&L5&_). split; [intros []|]. intros N. split; [|exact L2].
      intros l m' HM. eapply M_played; [reflexivity|exact N|exact L4|]. rewrite <- L5. exact HM.
    + destruct L as [L _]. split; [intros _; exact L|]. intros N. exfalso; apply N; exact I.
  - injection E as <- <-. split; [reflexivity|]. intros N. split; [|reflexivity]. intros l m' HM. apply M_other; [exact I|exact HM].
  - injection E as <- <-. split; [reflexivity|]. intros N. split; [|reflexivity]. intros l m' HM. apply M_other; [exact I|exact HM].
  - unfold estimate_noise_power in E. cbv zeta in E.
    pose proof (direct_loop d (Sig (d_rate (d_settings d)) (d_carrier (d_settings d)) (zeros A zero (d_tx (d_settings d)) n)) true) as L.
    destruct (trigger_direct _ _ _ _ _ _ _ _) as [[d1 s1] r] eqn:T.
    destruct r as [v|e].
    + destruct L as (L1&L2&_&_&_&t&L4&L5&_). injection E as <- <-. split; [intros []|]. intros N.
      split; [|destruct cache; exact L2].
      intros l m' HM. eapply M_played; [reflexivity|exact N|exact L4|]. rewrite <- L5. destruct cache; exact HM.
    + destruct L as [L _]. injection E as <- <-. split; [intros _; exact L|]. intros N. exfalso; apply N; exact I.
  - injection E as <- <-. split; [intros []|]. intros N. split; [|reflexivity]. intros l m' HM. apply M_other; [exact I|exact HM].
  - injection E as <- <-. split; [intros []|]. intros N. split; [|reflexivity]. intros l m' HM. apply M_other; [exact I|exact HM].
  - destruct (set_bandwidth w (d_settings d)) as [c|e]; injection E as <- <-.
    + split; [intros []|]. intros N. split; [|reflexivity]. intros l m' HM. apply M_other; [exact I|exact HM].
    + split; [reflexivity|]. intros N. exfalso; apply N; exact I.
Qed.

Lemma refused_dec (a : answer A P) : refused A P a \/ ~ refused A P a.
Proof. destruct a as [[|]|[|]|[|]|[|]|[|]]; cbn; tauto. Qed.

Lemma played_fixed c c' k : fixed c c' -> played A zero c' k = played A zero c k.
Proof. intros (E1&E2&E3&_). destruct k; cbn; try reflexivity. rewrite E1, E2, E3. reflexivity. Qed.
Lemma memories_fixed c c' corr m l m' : fixed c c' -> memories A P zero c' corr m l m' -> memories A P zero c corr m l m'.
Proof.
  intros F HM. induction HM as [m|m ts x l m' _ IH|m l m' _ IH|m k a s b t l m' Hp Hr Hs _ IH|m k a l m' Hr _ IH|m k a l m' Hk _ IH].
  - apply M_done.
  - apply M_transmit; exact IH.
  - apply M_trigger; exact IH.
  - eapply M_played; [rewrite <- (played_fixed c c' k F); exact Hp|exact Hr|exact Hs|exact IH].
  - apply M_refused; [exact Hr|exact IH].
  - apply M_other; [exact Hk|exact IH].
Qed.

Lemma run_loop ks : forall (d d' : dev) l,
  runl d ks = (d', l) ->
  memories A P zero (d_settings d) (correct_transmission rt) (d_hw d) l (d_hw d') /\
  recent_upload d' = last_transmission A P (recent_upload d) l /\ fixed (d_settings d) (d_settings d') /\ map fst l = ks.
Proof.
  induction ks as [|k ks IH]; cbn [run]; intros d d' l E.
  - injection E as <- <-. split; [apply M_done|]. repeat split; reflexivity.
  - destruct (stepl d k) as [d1 a] eqn:S1. destruct (runl d1 ks) as [d2 l2] eqn:R. injection E as <- <-.
    destruct (IH d1 d2 l2 R) as (I1&I2&I3&I4). pose proof (step_fixed M hwl d d1 k a S1) as F.
    apply (memories_fixed _ _ _ _ _ _ F) in I1.
    destruct (step_loop d d1 k a S1) as [L1 L2].
    split; [|split; [|split]].
    + destruct (refused_dec a) as [Ra|Ra].
      * apply M_refused; [exact Ra|]. rewrite (L1 Ra) in I1. exact I1.
      * apply (proj1 (L2 Ra)). exact I1.
    + rewrite I2. destruct (refused_dec a) as [Ra|Ra].
      * rewrite (L1 Ra). destruct k; try reflexivity. destruct a as [[|]|[|]|[|]|[|]|[|]]; cbn in Ra |- *; try reflexivity. destruct Ra.
      * rewrite (proj2 (L2 Ra)). destruct k; try reflexivity. destruct a as [[|]|[|]|[|]|[|]|[|]]; reflexivity.
    + exact (fixed_trans _ _ _ F I3).
    + cbn. rewrite I4. reflexivity.
Qed.

Lemma memories_unique c corr m l m1 : memories A P zero c corr m l m1 -> forall m2, memories A P zero c corr m l m2 -> m1 = m2.
Proof.
  intros HM. induction HM as [m|m ts x l m' _ IH|m l m' _ IH|m k a s b t l m' Hp Hr Hs _ IH|m k a l m' Hr _ IH|m k a l m' Hk _ IH]; intros m2 H2.
  - inversion H2; reflexivity.
  - inversion H2; subst; auto; cbn in *; try discriminate; tauto.
  - inversion H2; subst; auto; cbn in *; try discriminate; tauto.
  - inversion H2; subst; auto; cbn in *; try discriminate; try tauto.
    + match goal with X : played _ _ _ _ = Some (?s0, ?b0), Y : sent _ _ ?s0 ?b0 ?t0 |- _ => rewrite Hp in X; injection X as <- <-; rename Y into HY; rename t0 into v end.
      apply IH. assert (v = t) as <-; [|assumption].
      destruct b; cbn in *.
      * destruct Hs as [x [X1 X2]]. destruct HY as [y [Y1 Y2]]. congruence.
      * congruence.
    + destruct k; cbn in *; try discriminate; tauto.
  - inversion H2; subst; auto; cbn in *; try discriminate; tauto.
  - inversion H2; subst; auto; cbn in *; try discriminate; try tauto. destruct k; cbn in *; try discriminate; tauto.
Qed.

(** Receiving *)
Lemma selected_handed p s x : selected A p s = Ok x -> handed A p s x.
Proof.
  destruct p as [l|]; cbn; [|intros E; injection E as <-; reflexivity].
  intros E. destruct (mapM _ l) as [y|e] eqn:EM; cbn in E; [|discriminate]. injection E as <-. cbn. repeat split; try reflexivity.
  revert y EM. induction l as [|i l IH]; cbn; intros y EM.
  - injection EM as <-. constructor.
  - destruct (nth_error (s_streams s) i) as [r|] eqn:En; cbn in EM; [|discriminate].
    destruct (mapM _ l) as [ys|e] eqn:E2; cbn in EM; [|discriminate]. injection EM as <-. constructor; [exact En|apply IH; reflexivity].
Qed.
Lemma selected_exists p s : ports_exist p (num_streams s) -> exists x, selected A p s = Ok x.
Proof.
  destruct p as [l|]; cbn; [|eexists; reflexivity].
  intros Hp. assert (exists y, mapM (fun i => match nth_error (s_streams s) i with Some r => Ok r | None => Raise IndexError end) l = Ok y) as [y E].
  { induction l as [|i l IH]; cbn; [eexists; reflexivity|].
    destruct (nth_error (s_streams s) i) as [r|] eqn:En.
    - destruct IH as [ys IH]; [intros j Hj; apply Hp; right; exact Hj|]. rewrite IH. cbn. eexists; reflexivity.
    - apply nth_error_None in En. specialize (Hp i (or_introl eq_refl)). unfold num_streams in Hp. lia. }
  rewrite E. cbn. eexists; reflexivity.
Qed.
Lemma selected_all ps s : List.Forall (fun p => ports_exist p (num_streams s)) ps ->
  exists xs, mapM (fun p => selected A p s) ps = Ok xs /\ Forall2 (fun p x => handed A p s x) ps xs.
Proof.
  induction 1 as [|p ps Hp _ [xs [E F]]]; [exists []; split; [reflexivity|constructor]|].
  destruct (selected_exists p s Hp) as [x Ex]. exists (x :: xs). cbn. rewrite Ex. cbn. rewrite E. cbn. split; [reflexivity|].
  constructor; [apply selected_handed; exact Ex|exact F].
Qed.

Section Hw.
Variables (H : Type) (hw : hardware A H).

Definition uploaded_or_empty (u : option (signal A)) (s : signal A) : signal A :=
  match u with Some u => u | None => Sig (s_rate s) (s_carrier s) (repeat [] (num_streams s)) end.

Lemma process_one (d : device H A P) s :
  num_streams s = d_rx (d_settings d) -> s_rate s = d_rate (d_settings d) ->
  let r := remove_leakage rt (uploaded_or_empty (recent_upload d) s) s in
  num_streams r = d_rx (d_settings d) ->
  List.Forall (fun p => ports_exist p (num_streams (decode rt r))) (d_receivers (d_settings d)) ->
  exists xs, process_input A P H add hw rt d (One s) = Ok (Processed [r] xs) /\ Forall2 (fun p x => handed A p (decode rt r) x) (d_receivers (d_settings d)) xs.
Proof.
  intros E1 E2 r E3 Hp. destruct (selected_all _ _ Hp) as [xs [X1 X2]]. exists xs. split; [|exact X2].
  unfold process_input. cbn [bind]. rewrite E1, Nat.eqb_refl, E2, Z.eqb_refl. cbn [negb].
  change (device_process_input A P add rt (d_settings d)
            [remove_leakage rt (match recent_upload d with Some u => u | None => Sig (d_rate (d_settings d)) (s_carrier s) (repeat [] (d_rx (d_settings d))) end) s]
          = Ok (Processed [r] xs)).
  replace (remove_leakage rt _ s) with r by (unfold r, uploaded_or_empty; rewrite E1, E2; reflexivity).
  unfold device_process_input. cbn [bind]. rewrite E3, Nat.eqb_refl. cbn [negb]. rewrite X1. reflexivity.
Qed.

Lemma process_refuses (d : device H A P) s :
  num_streams s <> d_rx (d_settings d) \/ s_rate s <> d_rate (d_settings d) -> process_input A P H add hw rt d (One s) = Raise ValueError.
Proof.
  intros Hn. unfold process_input. cbn [bind].
  destruct (num_streams s =? d_rx (d_settings d)) eqn:E1; cbn [negb]; [|reflexivity]. apply Nat.eqb_eq in E1.
  destruct (s_rate s =? d_rate (d_settings d))%Z eqn:E2; cbn [negb]; [|reflexivity]. apply Z.eqb_eq in E2. tauto.
Qed.

Lemma receive_filter (d : device H A P) b w i :
  receive A P H add hw rt (with_settings A P H d (filter_settings b w (d_settings d))) i = receive A P H add hw rt d i.
Proof.
  unfold receive. cbn [d_hw with_settings]. destruct i as [|s|l]; cbn [bind].
  - destruct (hw_download hw (d_hw d)) as [s|e]; cbn [bind]; reflexivity.
  - reflexivity.
  - destruct l; reflexivity.
Qed.
End Hw.

Lemma superimpose_ok r s t v : superimpose A P add rt r s t = Ok v ->
  (num_streams s * num_samples s < 1 /\ v = t) \/ (1 <= num_streams s * num_samples s /\ s_rate v = s_rate s /\ s_carrier v = s_carrier s).
Proof.
  unfold superimpose. destruct (_ <? 1) eqn:E; [apply Nat.ltb_lt in E|apply Nat.ltb_ge in E].
  - intros X; injection X as <-; left; auto.
  - cbv zeta. destruct (negb _ && negb _); [discriminate|]. destruct (num_streams _ =? _); [|discriminate].
    intros X; injection X as <-; right; auto.
Qed.
End P.

(** USRP *)
Section U.
Variables (A : Type) (zero : A) (mul : A -> A -> A) (u : usrp A).
Hypothesis mul_zero : forall w, mul w zero = zero.

Lemma padding4_mod n : (n + padding4 n) mod 4 = 0.
Proof.
  unfold padding4. pose proof (Nat.div_mod n 4 ltac:(lia)) as D. pose proof (Nat.mod_upper_bound n 4 ltac:(lia)) as B.
  destruct (n mod 4 =? 0) eqn:E.
  - apply Nat.eqb_eq in E. rewrite Nat.add_0_r. exact E.
  - apply Nat.mod_divide; [lia|]. exists (n / 4 + 1). lia.
Qed.
Lemma next4_mod k : (k + (4 - k mod 4)) mod 4 = 0.
Proof.
  pose proof (Nat.div_mod k 4 ltac:(lia)) as D. pose proof (Nat.mod_upper_bound k 4 ltac:(lia)) as B.
  apply Nat.mod_divide; [lia|]. exists (k / 4 + 1). lia.
Qed.
Lemma padded_mod x : length (padded A zero u x) mod 4 = 0.
Proof. unfold padded. cbv zeta. rewrite app_length, repeat_length. apply padding4_mod. Qed.
Lemma reception_mod n : reception_samples A zero u n mod 4 = 0.
Proof. unfold reception_samples. cbv zeta. destruct (0 <? _); apply next4_mod. Qed.
Lemma reception_ge n : u_pre A u + u_app A u + Nat.max (u_frame A u) n <= reception_samples A zero u n.
Proof.
  unfold reception_samples. cbv zeta. destruct (0 <? Nat.max (u_frame A u) n) eqn:E.
  - lia.
  - apply Nat.ltb_ge in E. unfold padded. cbv zeta. rewrite !app_length, !repeat_length. cbn [length]. lia.
Qed.
Lemma reception_delay n : 0 < Nat.max (u_frame A u) n -> u_pre A u + u_app A u + u_delay A u + Nat.max (u_frame A u) n <= reception_samples A zero u n.
Proof. intros Hp. unfold reception_samples. cbv zeta. apply Nat.ltb_lt in Hp. rewrite Hp. lia. Qed.

Lemma firstn_zeros (x : list A) n k : length x <= n -> firstn n (x ++ repeat zero (n + k)) = x ++ repeat zero (n - length x).
Proof.
  intros Hl. rewrite firstn_app, firstn_all2 by exact Hl. f_equal.
  rewrite <- (firstn_all (repeat zero (n - length x))), repeat_length.
  replace (n + k) with ((n - length x) + (length x + k)) by lia. rewrite repeat_app, firstn_app, repeat_length, Nat.sub_diag. cbn. rewrite app_nil_r. reflexivity.
Qed.

Lemma echo_row x : forall n, u_pre A u + length x + u_app A u <= n ->
  slice (u_pre A u) (n - u_app A u) (firstn n (padded A zero u x ++ repeat zero n)) = x ++ repeat zero (n - u_app A u - u_pre A u - length x).
Proof.
  intros n Hn. unfold padded. cbv zeta. set (z := padding4 _).
  rewrite <- !app_assoc.
  rewrite <- repeat_app. rewrite <- repeat_app.
  unfold slice. rewrite skipn_firstn_comm, firstn_firstn.
  rewrite skipn_app, skipn_all2 by (rewrite repeat_length; lia). rewrite repeat_length, Nat.sub_diag. cbn [skipn app].
  replace (Nat.min (n - u_app A u - u_pre A u) (n - u_pre A u)) with (n - u_app A u - u_pre A u) by lia.
  replace (u_app A u + (z + n)) with ((n - u_app A u - u_pre A u) + (n - (n - u_app A u - u_pre A u) + u_app A u + z)) by lia.
  apply firstn_zeros. lia.
Qed.

Lemma weigh_ok w x : length x = length w -> weigh mul w x = Ok (map (fun p => map (mul (fst p)) (snd p)) (combine w x)).
Proof. intros E. unfold weigh. rewrite E, Nat.eqb_refl. reflexivity. Qed.
Lemma nth_combine {B D} (a : list B) : forall (b : list D) i x y, nth_error a i = Some x -> nth_error b i = Some y -> nth_error (combine a b) i = Some (x, y).
Proof.
  induction a as [|a0 a IH]; intros b i x y Ha Hb; [destruct i; discriminate|].
  destruct b as [|b0 b]; [destruct i; discriminate|]. destruct i; cbn in *; [congruence|]. apply IH; assumption.
Qed.
Lemma nth_map_some {B D} (f : B -> D) (l : list B) i x : nth_error l i = Some x -> nth_error (map f l) i = Some (f x).
Proof. intros E. rewrite nth_error_map, E. reflexivity. Qed.

Lemma usrp_echo h s n :
  length (u_weights_tx A u) = num_streams s -> length (u_weights_rx A u) = num_streams s -> u_rx A u = num_streams s ->
  (forall x, In x (s_streams s) -> length x = n) -> 1 <= num_streams s ->
  let h1 := fst (fst (usrp_upload A zero mul u h s)) in
  let h2 := usrp_trigger A (echo zero) h1 in
  exists y, usrp_download A mul u h2 = Ok y /\ s_rate y = u_rate A u /\ s_carrier y = u_carrier A u /\ num_streams y = num_streams s /\
  forall i x wt wr, nth_error (s_streams s) i = Some x -> nth_error (u_weights_tx A u) i = Some wt -> nth_error (u_weights_rx A u) i = Some wr ->
    nth_error (s_streams y) i = Some (map (fun a => mul wr (mul wt a)) x ++ repeat zero (reception_samples A zero u n - u_app A u - u_pre A u - n)).
Proof.
  intros Ht Hr Hx Hn H1 h1 h2. unfold h2, h1, usrp_upload. rewrite weigh_ok by (symmetry; exact Ht). cbn [fst].
  assert (En : num_samples s = n).
  { unfold num_samples. unfold num_streams in H1. destruct (s_streams s) as [|r l]; [cbn in H1; lia|]. apply Hn. left; reflexivity. }
  rewrite En. unfold usrp_trigger. cbn [r_tx r_num r_enabled]. unfold echo.
  set (X := map (fun p => map (mul (fst p)) (snd p)) (combine (u_weights_tx A u) (s_streams s))).
  assert (LX : length X = num_streams s) by (unfold X, num_streams in *; rewrite map_length, combine_length; lia).
  assert (NX : forall x, In x X -> length x = n).
  { intros x Hin. unfold X in Hin. apply in_map_iff in Hin as [[w y] [<- Hin]]. rewrite map_length. cbn. apply Hn. apply (in_combine_r _ _ _ _ Hin). }
  set (N := reception_samples A zero u n).
  assert (HN : u_pre A u + n + u_app A u <= N) by (pose proof (reception_ge n); fold N in H; lia).
  unfold usrp_download. cbn [r_enabled r_collected negb]. unfold usrp_collect. cbn [rev app].
  rewrite !map_length, LX, Hx, Nat.ltb_irrefl. cbn [bind].
  rewrite firstn_all2 by (rewrite !map_length, LX; lia).
  rewrite weigh_ok by (rewrite !map_length, LX, Hr; reflexivity). cbn [bind].
  eexists. split; [reflexivity|]. cbn [s_rate s_carrier s_streams]. repeat split; try reflexivity.
  - unfold num_streams. cbn [s_streams]. rewrite map_length, combine_length, !map_length, LX, Hr. unfold num_streams. lia.
  - intros i x wt wr E1 E2 E3.
    assert (E4 : nth_error X i = Some (map (mul wt) x)).
    { unfold X. rewrite (nth_map_some _ _ _ (wt, x)); [reflexivity|]. apply nth_combine; assumption. }
    assert (Ln : length (map (mul wt) x) = n) by (apply NX; apply (nth_error_In _ _ E4)).
    apply (nth_map_some (padded A zero u)) in E4. apply (nth_map_some (fun r => firstn N (r ++ repeat zero N))) in E4.
    apply (nth_map_some (fun r => slice (u_pre A u) (length r - u_app A u) r)) in E4.
    cbv beta in E4.
    rewrite firstn_length, app_length, repeat_length in E4. rewrite Nat.min_l in E4 by lia.
    rewrite (echo_row (map (mul wt) x) N) in E4 by (rewrite Ln; lia).
    rewrite Ln in E4.
    rewrite (nth_map_some _ _ _ (wr, map (mul wt) x ++ repeat zero (N - u_app A u - u_pre A u - n))).
    + cbn. rewrite map_app, map_map. f_equal. f_equal. clear - mul_zero. induction (N - u_app A u - u_pre A u - n) as [|k IH]; cbn; [reflexivity|]. rewrite mul_zero, IH. reflexivity.
    + apply nth_combine; [exact E3|exact E4].
Qed.
End U.

(** Adaptive sampling *)
Section Ad.
Variables (A P : Type) (add : A -> A -> A) (rt : routines A P).
Notation keeps_shape := (Phy_Spec.keeps_shape A P rt).

Lemma add_stream_length x y : length (add_stream A add x y) = Nat.max (length x) (length y).
Proof. revert y; induction x as [|a x IH]; destruct y; cbn; try lia. rewrite IH. reflexivity. Qed.
Lemma empty_size r c n : num_streams (Sig (A:=A) r c (repeat [] n)) * num_samples (Sig (A:=A) r c (repeat [] n)) = 0.
Proof. unfold num_samples, num_streams. destruct n; cbn; lia. Qed.

Lemma superimpose_fit r v t : keeps_shape -> 1 <= num_streams v * num_samples v -> s_rate t = s_rate v -> num_streams t = num_streams v ->
  exists w, superimpose A P add rt r v t = Ok w /\ s_rate w = s_rate v /\ num_streams w = num_streams v /\ 1 <= num_streams w * num_samples w.
Proof.
  intros K Hv Er En. unfold superimpose. assert (E : (num_streams v * num_samples v <? 1) = false) by (apply Nat.ltb_ge; lia). rewrite E.
  cbv zeta. rewrite Er, Z.eqb_refl. cbn [negb andb]. rewrite En, Nat.eqb_refl.
  eexists. split; [reflexivity|]. cbn [s_rate]. split; [reflexivity|].
  assert (L : length (mixed rt (s_rate v) (s_carrier v) t) = num_streams v).
  { rewrite <- En. unfold num_streams. rewrite <- (map_length (@length A)), K, map_length. reflexivity. }
  assert (E2 : num_streams (Sig (s_rate v) (s_carrier v) (map (fun p => add_stream A add (fst p) (snd p)) (combine (s_streams v) (mixed rt (s_rate v) (s_carrier v) t)))) = num_streams v).
  { unfold num_streams at 1. cbn [s_streams]. rewrite map_length, combine_length, L. unfold num_streams. lia. }
  split; [exact E2|]. rewrite E2.
  unfold num_samples in *. cbn [s_streams]. unfold num_streams in *. destruct (s_streams v) as [|x l]; [cbn in Hv; lia|].
  destruct (mixed rt (s_rate v) (s_carrier v) t) as [|m ms]; [cbn in L; lia|]. cbn [combine map fst snd]. rewrite add_stream_length.
  cbn [length] in *. nia.
Qed.
Lemma superimpose_prefix r pre : keeps_shape -> forall v post, 1 <= num_streams v * num_samples v ->
  List.Forall (fun t => s_rate t = s_rate v /\ num_streams t = num_streams v) pre ->
  exists w, superimpose_all A P add rt r v (pre ++ post) = superimpose_all A P add rt r w post /\ s_rate w = s_rate v /\ num_streams w = num_streams v /\ 1 <= num_streams w * num_samples w.
Proof.
  intros K. induction pre as [|t pre IH]; intros v post Hv HF; [exists v; auto|].
  inversion HF as [|? ? [H1 H2] H3]; subst. destruct (superimpose_fit r v t K Hv H1 H2) as (w&W1&W2&W3&W4).
  destruct (IH w post W4) as (w'&X1&X2&X3&X4); [rewrite W2, W3; exact H3|].
  exists w'. cbn. rewrite W1. cbn [bind]. split; [exact X1|]. split; [congruence|]. split; [congruence|exact X4].
Qed.
End Ad.

(** Dummy *)
Section Du.
Variables (A : Type) (zero : A) (sim : simulation A) (c : dummy_settings).
Definition view (d : dummy A) : bool * signal A * signal A := (y_receive A d, y_uploaded A d, y_downloaded A d).
Lemma drun_memories ks : forall d d' l, drun A zero sim c d ks = (d', l) -> dummy_memories zero c (view d) l (view d') /\ map fst l = ks.
Proof.
  induction ks as [|k ks IH]; cbn [drun]; intros d d' l E.
  - injection E as <- <-. split; [apply DM_done|reflexivity].
  - destruct (dstep A zero sim c d k) as [d1 a] eqn:S1. destruct (drun A zero sim c d1 ks) as [d2 l2] eqn:R. injection E as <- <-.
    destruct (IH d1 d2 l2 R) as [I1 I2]. split; [|cbn; rewrite I2; reflexivity].
    destruct d as [b up dn]. destruct k; cbn [dstep] in S1.
    + unfold dummy_transmit in S1. destruct (sim_transmit A sim ts) as [m|e]; injection S1 as <- <-; [apply DM_transmit|apply DM_refused]; exact I1.
    + unfold dummy_trigger in S1. cbn [y_receive y_uploaded] in S1. destruct b; injection S1 as <- <-.
      * apply DM_trigger. exact I1.
      * eapply DM_silence; [| | | |exact I1]; cbn; [reflexivity|reflexivity| |].
        { unfold num_streams. cbn [s_streams]. unfold zeros. rewrite repeat_length. reflexivity. }
        { intros r Hr. apply repeat_spec in Hr. subst r. split; [apply repeat_length|]. intros y Hy. apply repeat_spec in Hy. exact Hy. }
    + injection S1 as <- <-. apply DM_other; [exact I|exact I1].
    + injection S1 as <- <-. apply DM_other; [exact I|exact I1].
    + injection S1 as <- <-. apply DM_other; [exact I|exact I1].
    + injection S1 as <- <-. eapply DM_set. exact I1.
Qed.
End Du.
