(** C21 - C25, C51, C52: precoding, receive diversity, zero forcing and coding chains. *)
From Coq Require Import Permutation Reals List Arith Bool ZArith QArith Qround Lia Lra.
From Coquelicot Require Import Complex.
From Verif Require Import Base BaseLemmas Cplx Cplx_Proofs Precode_Model Precode_Spec Precode_Proofs.
From Verif Require Fec_Model FecCodes_Proofs.
Import ListNotations.
Open Scope R_scope.
Open Scope C_scope.

(** Demonstration symbols: one stream of six blocks of two symbols; channels *)
Definition demo_symbols (n : nat) : stated :=
  mkStated 1 1 n 2 (fun _ b k => (INR b, INR k)) (fun _ _ _ _ => 1).
Definition demo_channel : nat -> nat -> nat -> nat -> C := fun i t _ _ => (INR t, INR i).

(** *** C21 *)
Theorem C21_alamouti_recovers_the_symbols s h nrx outs :
  streams s = 1%nat -> Nat.even (blocks s) = true -> constant_over 2 h ->
  exists sent got, alamouti_encode s 2 = Ok sent
    /\ streams sent = 2%nat /\ blocks sent = blocks s /\ width sent = width s
    /\ alamouti_decode (over_channel nrx h sent) outs = Ok got
    /\ streams got = nrx /\ txs got = 1%nat /\ blocks got = blocks s /\ width got = width s
    /\ (forall i t b k, state got i t b k = 1)
    /\ forall i b k, (i < nrx)%nat -> (b < blocks s)%nat -> (k < width s)%nat ->
       h i 0%nat b k <> 0 \/ h i 1%nat b k <> 0 -> raw got i b k = raw s 0%nat b k.
Proof.
  intros S1 EV HC. assert (E : exists sent, alamouti_encode s 2 = Ok sent
    /\ streams sent = 2%nat /\ blocks sent = blocks s /\ width sent = width s).
  { unfold alamouti_encode. rewrite S1, EV. cbn. eexists. split; [reflexivity|]. cbn. auto. }
  destruct E as (sent & E & E1 & E2 & E3). exists sent.
  destruct (alamouti_recovers s h nrx sent HC E outs) as (got & D & G1 & G2 & G3 & G4 & G5 & G6).
  exists got. repeat (split; [assumption|]). intros i b k _ _ _ HN. apply G6.
  pose proof (abs2_nonneg (h i 0%nat b k)). pose proof (abs2_nonneg (h i 1%nat b k)).
  destruct HN as [HN|HN]; apply abs2_pos in HN; lra.
Qed.
Print Assumptions C21_alamouti_recovers_the_symbols.
Example C21_met : streams (demo_symbols 6) = 1%nat /\ Nat.even (blocks (demo_symbols 6)) = true
  /\ constant_over 2 demo_channel /\ demo_channel 1 0 5 1 <> 0.
Proof.
  repeat split. intro E. apply (f_equal snd) in E. cbn in E. lra.
Qed.

Theorem C21_invalid_configurations_are_rejected s outs :
  (alamouti_encode s outs = Raise ValueError <->
     streams s <> 1%nat \/ outs <> 2%Z \/ Nat.even (blocks s) = false)
  /\ (Nat.even (blocks s) = false -> alamouti_decode s outs = Raise ValueError)
  /\ (Nat.even (blocks s) = true -> (txs s < 2)%nat -> alamouti_decode s outs = Raise IndexError).
Proof.
  split; [|split].
  - unfold alamouti_encode. destruct (Nat.eqb_spec (streams s) 1); cbn [negb]; [|tauto].
    destruct (Z.eqb_spec outs 2); cbn [negb]; [|tauto].
    destruct (Nat.even (blocks s)); cbn [negb]; [|tauto]. split; [discriminate|].
    intros [H|[H|H]]; [contradiction|contradiction|discriminate].
  - intro H. unfold alamouti_decode. rewrite H. reflexivity.
  - intros H L. unfold alamouti_decode. rewrite H. apply Nat.ltb_lt in L. rewrite L. reflexivity.
Qed.
Print Assumptions C21_invalid_configurations_are_rejected.
Example C21_rejected : alamouti_encode (demo_symbols 5) 2 = Raise ValueError.
Proof. reflexivity. Qed.

(** *** C22 *)

(** Every channel that is constant over each group of four blocks and not zero *)
Theorem C22_ganesan_recovers_the_symbols pinv s h nrx outs :
  streams s = 1%nat -> (blocks s mod 3 = 0)%nat -> constant_over 4 h ->
  (forall c, penrose_R 8 6 (ganesan_matrix c) (pinv (ganesan_matrix c))) ->
  exists sent got, ganesan_encode s 4 = Ok sent
    /\ streams sent = 4%nat /\ (blocks sent * 3 = blocks s * 4)%nat /\ width sent = width s
    /\ ganesan_decode pinv (over_channel nrx h sent) outs = Ok got
    /\ streams got = nrx /\ txs got = 1%nat /\ blocks got = blocks s /\ width got = width s
    /\ (forall i t b k, state got i t b k = 1)
    /\ forall i b k, (i < nrx)%nat -> (b < blocks s)%nat -> (k < width s)%nat ->
       (exists t, (t < 4)%nat /\ h i t (4 * (b / 3))%nat k <> 0) ->
       raw got i b k = raw s 0%nat b k.
Proof.
  intros S1 M3 HC HP. assert (E : exists sent, ganesan_encode s 4 = Ok sent
    /\ streams sent = 4%nat /\ (blocks sent * 3 = blocks s * 4)%nat /\ width sent = width s).
  { unfold ganesan_encode. rewrite S1, M3. cbn [Nat.eqb negb Z.eqb Pos.eqb]. eexists. split; [reflexivity|].
    cbn [streams blocks width]. split; [reflexivity|]. split; [|reflexivity].
    pose proof (Nat.div_mod (blocks s) 3 ltac:(lia)). lia. }
  destruct E as (sent & E & E1 & E2 & E3). exists sent.
  destruct (ganesan_recovers pinv s h nrx sent E outs) as (got & D & G1 & G2 & G3 & G4 & G5 & G6).
  exists got. do 10 (split; [assumption|]). intros i b k _ _ Hk HN. apply G6; [exact Hk|apply HP|].
  apply ganesan_injective.
  - intros t m Hm. rewrite HC by exact Hm. rewrite Nat.add_0_r. reflexivity.
  - destruct HN as (t & Ht & HN). exists t. rewrite Nat.add_0_r. auto.
Qed.
Print Assumptions C22_ganesan_recovers_the_symbols.

(** ... and every other channel over which the code words can be told apart at all. *)
Theorem C22_ganesan_over_any_distinguishing_channel pinv s h nrx outs sent :
  ganesan_encode s 4 = Ok sent ->
  exists got, ganesan_decode pinv (over_channel nrx h sent) outs = Ok got
    /\ blocks got = blocks s
    /\ forall i b k, (i < nrx)%nat -> (b < blocks s)%nat -> (k < width s)%nat ->
       let a := ganesan_matrix (fun t m => h i t (4 * (b / 3) + m)%nat k) in
       penrose_R 8 6 a (pinv a) -> injective_R 8 6 a -> raw got i b k = raw s 0%nat b k.
Proof.
  intro E. destruct (ganesan_recovers pinv s h nrx sent E outs) as (got & D & G1 & G2 & G3 & G4 & G5 & G6).
  exists got. split; [exact D|]. split; [exact G3|]. intros i b k _ _ Hk. apply G6, Hk.
Qed.
Print Assumptions C22_ganesan_over_any_distinguishing_channel.

(** The hypotheses are met: for a constant channel the scaled transpose of the system
    matrix satisfies the Penrose condition. *)
Lemma ganesan_transpose (h : nat -> C) : (rsum (fun t => abs2 (h t)) 4 <> 0)%R ->
  penrose_R 8 6 (ganesan_matrix (fun t _ => h t))
    (fun c l => (/ rsum (fun t => abs2 (h t)) 4 * ganesan_matrix (fun t _ => h t) l c)%R).
Proof.
  intros HN i j Hi Hj. set (a := ganesan_matrix (fun t _ => h t)). set (w := rsum (fun t => abs2 (h t)) 4) in *.
  transitivity (rsum (fun c => a i c * (if Nat.eqb c j then 1 else 0))%R 6).
  - apply rsum_ext. intros c Hc. f_equal.
    rewrite (rsum_ext _ (fun l => / w * (a l c * rsum (fun d => a l d * (if Nat.eqb d j then 1 else 0)) 6)))%R.
    + rewrite rsum_scal. unfold a. rewrite (ganesan_orthogonal h (fun d => if Nat.eqb d j then 1 else 0)%R c Hc).
      fold w. rewrite <- Rmult_assoc, Rinv_l by exact HN. ring.
    + intros l Hl. do 6 (destruct j as [|j]; [cbn [rsum Nat.eqb]; ring|]). lia.
  - do 6 (destruct j as [|j]; [cbn [rsum Nat.eqb]; ring|]). lia.
Qed.
Example C22_met : streams (demo_symbols 6) = 1%nat /\ (blocks (demo_symbols 6) mod 3 = 0)%nat
  /\ constant_over 4 demo_channel
  /\ penrose_R 8 6 (ganesan_matrix (fun t _ => demo_channel 1 t 0 0))
       (fun c l => (/ rsum (fun t => abs2 (demo_channel 1 t 0 0)) 4 * ganesan_matrix (fun t _ => demo_channel 1 t 0 0) l c)%R)
  /\ demo_channel 1 0 (4 * (5 / 3)) 1 <> 0.
Proof.
  split; [reflexivity|]. split; [reflexivity|]. split; [intros i t p m k _; reflexivity|].
  split.
  - apply (ganesan_transpose (fun t => demo_channel 1 t 0%nat 0%nat)). unfold abs2, demo_channel. cbn. lra.
  - intro E. apply (f_equal snd) in E. cbn in E. lra.
Qed.

Theorem C22_invalid_configurations_are_rejected pinv s outs :
  (raises (ganesan_encode s outs) <-> streams s <> 1%nat \/ outs <> 4%Z \/ (blocks s mod 3 <> 0)%nat)
  /\ (raises (ganesan_decode pinv s outs) <-> (blocks s mod 4 <> 0)%nat \/ txs s <> 4%nat).
Proof.
  split.
  - unfold ganesan_encode. destruct (Nat.eqb_spec (streams s) 1); cbn [negb].
    2: { split; [tauto|intros _; eexists; reflexivity]. }
    destruct (Z.eqb_spec outs 4); cbn [negb].
    2: { split; [tauto|intros _; eexists; reflexivity]. }
    destruct (Nat.eqb_spec (blocks s mod 3) 0); cbn [negb].
    2: { split; [tauto|intros _; eexists; reflexivity]. }
    split; [intros (x & Hx); discriminate|tauto].
  - unfold ganesan_decode. destruct (Nat.eqb_spec (blocks s mod 4) 0); cbn [negb].
    2: { split; [tauto|intros _; eexists; reflexivity]. }
    destruct (Nat.eqb_spec (txs s) 4); cbn [negb].
    2: { split; [tauto|intros _; eexists; reflexivity]. }
    split; [intros (x & Hx); discriminate|tauto].
Qed.
Print Assumptions C22_invalid_configurations_are_rejected.

(** *** C23 *)
Theorem C23_mrc_returns_the_symbols s h nrx outs :
  streams s = 1%nat ->
  exists got, mrc_decode (over_channel nrx h s) outs = Ok got
    /\ streams got = 1%nat /\ txs got = 1%nat /\ blocks got = blocks s /\ width got = width s
    /\ forall b k, (b < blocks s)%nat -> (k < width s)%nat ->
       (exists i, (i < nrx)%nat /\ h i 0%nat b k <> 0) -> raw got 0%nat b k = raw s 0%nat b k.
Proof.
  intro S1. destruct (mrc_recovers s h nrx S1 outs) as (got & D & G1 & G2 & G3 & G4 & G5).
  exists got. do 5 (split; [assumption|]). intros b k _ Hk (i & Hi & Hn). apply G5; [exact Hk|].
  apply (rsum_abs2_pos (fun i => h i 0%nat b k) nrx i Hi Hn).
Qed.
Print Assumptions C23_mrc_returns_the_symbols.
Example C23_met : streams (demo_symbols 5) = 1%nat /\ demo_channel 3 0 2 1 <> 0.
Proof. split; [reflexivity|]. intro E. apply (f_equal snd) in E. cbn in E. lra. Qed.

Theorem C23_mrc_requires_one_transmit_stream s outs : txs s <> 1%nat -> mrc_decode s outs = Raise RuntimeError.
Proof. intro H. unfold mrc_decode. apply Nat.eqb_neq in H. rewrite H. reflexivity. Qed.
Print Assumptions C23_mrc_requires_one_transmit_stream.

(** Zero forcing after maximum ratio combining divides by the channel energy once more. *)
Theorem C23_mrc_then_zero_forcing pinv s h nrx outs :
  streams s = 1%nat ->
  exists got, mrc_decode (over_channel nrx h s) outs = Ok got /\ fst (zf_equalize pinv got) = 1%nat
    /\ forall b k, (b < blocks s)%nat -> (k < width s)%nat ->
       (exists i, (i < nrx)%nat /\ h i 0%nat b k <> 0) ->
       snd (zf_equalize pinv got) 0%nat b k
       = raw s 0%nat b k / RtoC (rsum (fun i => abs2 (h i 0%nat b k)) nrx).
Proof.
  intro S1. destruct (mrc_recovers s h nrx S1 outs) as (got & D & G1 & G2 & G3 & G4 & G5).
  exists got. split; [exact D|]. unfold zf_equalize. rewrite G1, G2. cbn [Nat.ltb Nat.leb fst snd].
  split; [reflexivity|]. intros b k _ Hk (i & Hi & Hn). destruct (G5 b k Hk) as [E1 E2].
  cbn [csum]. rewrite E1, E2 by (apply (rsum_abs2_pos (fun i => h i 0%nat b k) nrx i Hi Hn)).
  rewrite Cplus_0_l. reflexivity.
Qed.
Print Assumptions C23_mrc_then_zero_forcing.

Theorem C23_mrc_then_zero_forcing_refuted :
  ~ (forall pinv s h nrx outs got, streams s = 1%nat ->
       mrc_decode (over_channel nrx h s) outs = Ok got ->
       forall b k, (b < blocks s)%nat -> (k < width s)%nat -> (exists i, (i < nrx)%nat /\ h i 0%nat b k <> 0) ->
       snd (zf_equalize pinv got) 0%nat b k = raw s 0%nat b k).
Proof.
  intro H. set (h := fun _ _ _ _ : nat => RtoC 2). set (s := demo_symbols 2).
  destruct (C23_mrc_then_zero_forcing (fun _ _ _ _ _ => 0) s h 1 1 eq_refl) as (got & D & _ & E).
  assert (HN : exists i, (i < 1)%nat /\ h i 0%nat 1%nat 0%nat <> 0).
  { exists 0%nat. split; [lia|]. intro Z. apply (f_equal fst) in Z. cbn in Z. lra. }
  specialize (E 1%nat 0%nat ltac:(cbn; lia) ltac:(cbn; lia) HN).
  specialize (H (fun _ _ _ _ _ => 0) s h 1%nat 1%Z got eq_refl D 1%nat 0%nat ltac:(cbn; lia) ltac:(cbn; lia) HN).
  rewrite E in H. replace (rsum _ 1) with 4%R in H by (unfold abs2, h; cbn; ring).
  assert (N4 : RtoC 4 <> 0) by (apply RtoC_nz; lra).
  assert (H' : raw s 0%nat 1%nat 0%nat / RtoC 4 * RtoC 4 = raw s 0%nat 1%nat 0%nat) by (field; exact N4).
  rewrite H in H'. apply (f_equal fst) in H'. cbn in H'. lra.
Qed.
Print Assumptions C23_mrc_then_zero_forcing_refuted.

(** *** C51: zero forcing *)
Theorem C51_zero_forcing_inverts_the_channel pinv nrx h sent :
  (2 <= nrx)%nat ->
  fst (zf_equalize pinv (over_channel nrx h sent)) = streams sent
  /\ forall a b k, (a < streams sent)%nat -> (b < blocks sent)%nat -> (k < width sent)%nat ->
     let m := fun r t => h r t b k in
     penrose_C nrx (streams sent) m (pinv nrx (streams sent) m) ->
     injective_C nrx (streams sent) m ->
     snd (zf_equalize pinv (over_channel nrx h sent)) a b k = raw sent a b k.
Proof.
  intro HN. unfold zf_equalize, over_channel. cbn [streams txs blocks width raw state].
  destruct (Nat.ltb_spec nrx 2); [lia|]. split; [reflexivity|]. cbn [snd]. intros a b k Ha _ _ P I.
  apply (penrose_left_C nrx (streams sent) (fun r t => h r t b k) _ (fun t => raw sent t b k)); assumption.
Qed.
Print Assumptions C51_zero_forcing_inverts_the_channel.
Example C51_met : penrose_C 3 1 (fun r _ => RtoC (INR r)) (fun _ l => RtoC (INR l) / RtoC 5)
  /\ injective_C 3 1 (fun r _ => RtoC (INR r)).
Proof.
  split.
  - intros i j Hi Hj. assert (j = 0)%nat as -> by lia.
    assert (N5 : RtoC 5 <> 0) by (apply RtoC_nz; lra).
    do 3 (destruct i as [|i]; [cbn [csum INR]; rewrite ?RtoC_plus; apply C_ext; cbn; field; lra|]). lia.
  - intros v H c Hc. assert (c = 0)%nat as -> by lia. specialize (H 1%nat ltac:(lia)). cbn in H.
    rewrite Cplus_0_l, Cmult_1_l in H. exact H.
Qed.

(** A single receive antenna: the symbol all antennas transmit, divided out *)
Theorem C51_zero_forcing_on_one_antenna pinv h sent x b k :
  (forall t, (t < streams sent)%nat -> raw sent t b k = x) ->
  csum (fun t => h 0%nat t b k) (streams sent) <> 0 ->
  fst (zf_equalize pinv (over_channel 1 h sent)) = 1%nat
  /\ snd (zf_equalize pinv (over_channel 1 h sent)) 0%nat b k = x.
Proof.
  intros HX HN. unfold zf_equalize, over_channel. cbn [streams txs blocks width raw state Nat.ltb Nat.leb fst snd].
  split; [reflexivity|]. rewrite (csum_ext _ (fun t => h 0%nat t b k * x)) by (intros t Ht; rewrite HX by exact Ht; reflexivity).
  rewrite csum_scal_r. field. exact HN.
Qed.
Print Assumptions C51_zero_forcing_on_one_antenna.

(** *** C52: selection combining *)
Theorem C52_the_strongest_antenna_is_selected s h nrx outs :
  (1 <= nrx)%nat -> (1 <= streams s <= 2)%nat ->
  exists got, sc_decode (over_channel nrx h s) outs = Ok got
    /\ streams got = 1%nat /\ blocks got = blocks s /\ width got = width s
    /\ forall b k, exists i, (i < nrx)%nat
         /\ raw got 0%nat b k = csum (fun t => h i t b k * raw s t b k) (streams s)
         /\ (forall i', (i' < nrx)%nat ->
             Cmod (csum (fun t => h i' t b k) (streams s)) <= Cmod (csum (fun t => h i t b k) (streams s)))%R
         /\ (forall t, (t < streams s)%nat -> state got 0%nat t b k = h i t b k).
Proof.
  intros HN HS. unfold sc_decode, over_channel. cbn [streams txs blocks width raw state].
  destruct nrx as [|n]; [lia|].
  destruct (Nat.ltb_spec 2 (streams s)); [lia|]. destruct (Nat.eqb_spec (streams s) 0); [lia|]. cbn [orb].
  eexists. split; [reflexivity|]. cbn [streams txs blocks width raw state]. do 3 (split; [reflexivity|]).
  intros b k. set (f := fun r => Cmod (csum (fun t => h r t b k) (streams s))).
  destruct (argmax_spec f n) as (L & M & F). exists (argmax f n). split; [lia|]. split; [reflexivity|]. split.
  - intros i' Hi'. apply (M i'). lia.
  - intros t Ht. destruct (Nat.eqb_spec (streams s) 1); [|reflexivity]. replace t with 0%nat by lia. reflexivity.
Qed.
Print Assumptions C52_the_strongest_antenna_is_selected.
Example C52_met : (1 <= streams (demo_symbols 5) <= 2)%nat.
Proof. cbn. lia. Qed.

(** With one transmit stream the states are duplicated: zero forcing halves the symbols. *)
Theorem C52_zero_forcing_after_selection pinv s h nrx outs :
  (1 <= nrx)%nat -> streams s = 1%nat ->
  exists got, sc_decode (over_channel nrx h s) outs = Ok got /\ txs got = 2%nat
    /\ forall b k, (exists i, (i < nrx)%nat /\ h i 0%nat b k <> 0) ->
       snd (zf_equalize pinv got) 0%nat b k = raw s 0%nat b k / RtoC 2.
Proof.
  intros HN HS. unfold sc_decode, over_channel. cbn [streams txs blocks width raw state].
  destruct nrx as [|n]; [lia|]. rewrite HS. cbn [Nat.ltb Nat.leb Nat.eqb orb].
  eexists. split; [reflexivity|]. cbn [streams txs blocks width raw state]. split; [reflexivity|].
  intros b k (i & Hi & Hh). unfold zf_equalize. cbn [streams txs raw state Nat.ltb Nat.leb snd].
  set (f := fun r => Cmod (csum (fun t => h r t b k) 1)).
  destruct (argmax_spec f n) as (L & M & F). set (m := argmax f n) in *.
  assert (HM : h m 0%nat b k <> 0).
  { intro Z. specialize (M i ltac:(lia)). unfold f in M. cbn [csum] in M.
    rewrite !Cplus_0_l, Z, Cmod_0 in M. apply Cmod_gt_0 in Hh. lra. }
  cbn [csum]. rewrite !Cplus_0_l.
  assert (H2 : RtoC 2 <> 0) by (apply RtoC_nz; lra).
  replace (h m 0%nat b k + h m 0%nat b k) with (RtoC 2 * h m 0%nat b k)
    by (replace (RtoC 2) with (RtoC 1 + RtoC 1) by (rewrite <- RtoC_plus; f_equal; lra); ring).
  field. split; assumption.
Qed.
Print Assumptions C52_zero_forcing_after_selection.

Theorem C52_more_than_two_transmit_streams_raise s outs :
  (1 <= streams s)%nat -> (2 < txs s)%nat -> sc_decode s outs = Raise IndexError.
Proof.
  intros H1 H2. unfold sc_decode. destruct (streams s); [lia|]. apply Nat.ltb_lt in H2. rewrite H2. reflexivity.
Qed.
Print Assumptions C52_more_than_two_transmit_streams_raise.

(** *** C24 *)

(** A receive chain that undoes the stages of the transmit chain in reverse order, stage by
    stage, returns the input.  The relations say how what a stage of the receiver gets
    relates to what the corresponding stage of the transmitter emitted: equality, equality
    of symbols, or propagation over a channel. *)
Theorem C24_chains_are_undone_in_reverse_order {A} (num : A -> nat) ts rs Rout Rin s outs sent y :
  matched num ts rs Rout Rin -> encode_symbols ts s outs = Ok sent -> Rout sent y -> (1 <= num y)%nat ->
  exists x, decode_symbols num rs y = Ok x /\ Rin s x
    /\ num_receive_output_streams rs (Z.of_nat (num y)) = Ok (Z.of_nat (num x)).
Proof.
  intros M E HR HN. unfold encode_symbols, collect_encoder in E.
  destruct (outs <? 1)%Z; [discriminate|]. apply bind_ok in E as (io & E1 & E2).
  destruct (collect_in_head _ _ _ E1) as [L _]. destruct io as [|z io]; [discriminate|]. cbn [tl] in E2.
  cbn [length] in L.
  destruct (matched_decodes num ts rs Rout Rin M io s sent y ltac:(lia) E2 HR) as (l & got & C1 & C2 & C3 & C4 & C5).
  exists got. unfold decode_symbols, collect_decoder. destruct (Z.ltb_spec (Z.of_nat (num y)) 1); [lia|].
  rewrite C1. cbn [bind]. split; [exact C2|]. split; [exact C3|].
  destruct rs as [|r rs].
  - cbn in C1. injection C1 as <-. cbn in C5. cbn. congruence.
  - unfold num_receive_output_streams, collect_decoder. destruct (Z.ltb_spec (Z.of_nat (num y)) 1); [lia|].
    rewrite C1. cbn [bind]. rewrite C5. reflexivity.
Qed.
Print Assumptions C24_chains_are_undone_in_reverse_order.

(** Example: DFT precoding followed by Alamouti coding, over every channel that is constant
    over pairs of blocks, decoded by Alamouti decoding followed by the inverse DFT. *)
Theorem C24_dft_and_alamouti_over_a_channel m s sent h nrx :
  encode_symbols [dft_t m; alamouti_t] s 2 = Ok sent -> (1 <= nrx)%nat -> constant_over 2 h ->
  (forall i b k, h i 0%nat b k <> 0 \/ h i 1%nat b k <> 0) ->
  exists x, decode_symbols streams [alamouti_r; dft_r m] (over_channel nrx h sent) = Ok x
    /\ streams x = nrx /\ blocks x = blocks s /\ width x = width s
    /\ forall i b k, (i < nrx)%nat -> (b < blocks s)%nat -> (k < width s)%nat -> raw x i b k = raw s 0%nat b k.
Proof.
  intros E HN HC HH.
  set (R1 := fun s' y => y = over_channel nrx h s').
  set (R2 := fun s' y => streams y = nrx /\ blocks y = blocks s' /\ width y = width s'
     /\ forall i b k, (i < nrx)%nat -> (b < blocks s')%nat -> (k < width s')%nat -> raw y i b k = raw s' 0%nat b k).
  assert (M : matched streams ([dft_t m] ++ [alamouti_t]) [alamouti_r; dft_r m] R1 R2).
  { apply matched_snoc with (R2 := R2).
    - intros s1 o s2 y A1 ->. cbn [t_apply alamouti_t] in A1.
      assert (Ho : o = 2%Z).
      { unfold alamouti_encode in A1. destruct (negb (streams s1 =? 1)%nat); [discriminate|].
        destruct (Z.eqb_spec o 2); [assumption|discriminate]. }
      subst o.
      destruct (alamouti_recovers s1 h nrx s2 HC A1 (Z.of_nat nrx)) as (got & D & G1 & G2 & G3 & G4 & G5 & G6).
      exists got. cbn [r_apply r_outs alamouti_r]. change (streams (over_channel nrx h s2)) with nrx.
      split; [exact D|]. split; [|congruence]. split; [exact G1|]. split; [exact G3|]. split; [exact G4|].
      intros i b k _ _ _. apply G6. pose proof (abs2_nonneg (h i 0%nat b k)). pose proof (abs2_nonneg (h i 1%nat b k)).
      destruct (HH i b k) as [Z|Z]; apply abs2_pos in Z; lra.
    - apply (matched_snoc streams [] [] (dft_t m) (dft_r m) R2 R2 R2); [|apply matched_nil].
      intros s1 o s2 y A1 (Y1 & Y2 & Y3 & Y4). cbn [t_apply dft_t dft_encode_symbols] in A1. injection A1 as <-.
      cbn [streams blocks width raw] in *. eexists. cbn [r_apply r_outs dft_r dft_decode_symbols].
      split; [reflexivity|]. split; [|reflexivity]. cbn [streams blocks width raw].
      split; [exact Y1|]. split; [exact Y2|]. split; [exact Y3|]. cbn [raw]. intros i b k Hi Hb Hk.
      rewrite Y2. rewrite (ifft_at_ext m _ (fft_at m (fun i => raw s1 0%nat i k) (blocks s1))).
      + exact (ifft_fft_at m (fun i => raw s1 0%nat i k) (blocks s1) b Hb).
      + intros j Hj. apply Y4; assumption. }
  destruct (C24_chains_are_undone_in_reverse_order streams _ _ R1 R2 s 2%Z sent (over_channel nrx h sent) M E eq_refl)
    as (x & D & HR & _); [exact HN|]. exists x. split; [exact D|]. exact HR.
Qed.
Print Assumptions C24_dft_and_alamouti_over_a_channel.
Example C24_met : is_ok (encode_symbols [dft_t Ortho; alamouti_t] (demo_symbols 6) 2).
Proof. eexists. reflexivity. Qed.

(** Decoding in the order of the transmit chain does not invert it. *)
Theorem C24_same_order_refuted :
  ~ (forall (A : Type) (num : A -> nat) t1 t2 r1 r2 s outs sent,
       undoes num eq eq t1 r1 -> undoes num eq eq t2 r2 ->
       encode_symbols [t1; t2] s outs = Ok sent -> decode_symbols num [r1; r2] sent = Ok s).
Proof.
  intro H.
  set (t1 := mkT (fun (x : nat * Z) _ => Ok (fst x, snd x + 2)%Z) (fun o => o) 1 1).
  set (t2 := mkT (fun (x : nat * Z) _ => Ok (fst x, snd x * 3)%Z) (fun o => o) 1 1).
  set (r1 := mkR (fun (x : nat * Z) _ => Ok (fst x, snd x - 2)%Z) (fun o => o) 1 1).
  set (r2 := mkR (fun (x : nat * Z) _ => Ok (fst x, snd x / 3)%Z) (fun o => o) 1 1).
  specialize (H (nat * Z)%type fst t1 t2 r1 r2 (1%nat, 1%Z) 1%Z (1%nat, 9%Z)).
  assert (U1 : undoes fst eq eq t1 r1).
  { intros [n s] o s' y E <-. cbn in E. injection E as <-. cbn. eexists. split; [reflexivity|].
    split; [f_equal; lia|reflexivity]. }
  assert (U2 : undoes fst eq eq t2 r2).
  { intros [n s] o s' y E <-. cbn [t_apply t2 fst snd] in E. injection E as <-.
    cbn [r_apply r2 r_outs fst snd]. eexists. split; [reflexivity|].
    split; [f_equal; symmetry; apply Z.div_mul; lia|reflexivity]. }
  specialize (H U1 U2 eq_refl). vm_compute in H. discriminate.
Qed.
Print Assumptions C24_same_order_refuted.

(** Stream counts.  A coder keeps its word if it emits the number of streams it is asked for
    and accepts only the number it advertises. *)
Definition keeps_word {A} (num : A -> nat) (c : tcoder A) : Prop :=
  forall x o y, t_apply c x o = Ok y -> Z.of_nat (num y) = o /\ Z.of_nat (num x) = t_ins c o.
Theorem C24_stream_counts_are_consistent {A} (num : A -> nat) chain s outs sent :
  Forall (keeps_word num) chain -> chain <> [] -> encode_symbols chain s outs = Ok sent ->
  Z.of_nat (num sent) = outs /\ num_transmit_input_streams chain outs = Ok (Z.of_nat (num s)).
Proof.
  intros F N E. unfold encode_symbols, collect_encoder in E. destruct (outs <? 1)%Z eqn:Eo; [discriminate|].
  apply bind_ok in E as (io & E1 & E2). split.
  - eapply run_encode_streams; [|exact E1|exact E2|exact N]. revert F. apply Forall_impl.
    intros c Hc x o y Hx. apply (Hc x o y Hx).
  - unfold num_transmit_input_streams, collect_encoder. destruct chain; [congruence|]. rewrite Eo, E1. cbn [bind].
    f_equal. symmetry. eapply run_encode_inputs; [|exact E1|exact E2|exact N]. revert F. apply Forall_impl.
    intros c Hc x o y Hx. apply (Hc x o y Hx).
Qed.
Print Assumptions C24_stream_counts_are_consistent.
Lemma alamouti_keeps_word : keeps_word streams alamouti_t.
Proof.
  intros x o y E. cbn [t_apply alamouti_t t_ins] in *. unfold alamouti_encode in E.
  destruct (Nat.eqb_spec (streams x) 1) as [Hx|]; [|discriminate]. destruct (Z.eqb_spec o 2); [|discriminate].
  cbn [negb] in E. destruct (negb _); [discriminate|]. injection E as <-. cbn [streams]. lia.
Qed.
Lemma ganesan_keeps_word : keeps_word streams ganesan_t.
Proof.
  intros x o y E. cbn [t_apply ganesan_t t_ins] in *. unfold ganesan_encode in E.
  destruct (Nat.eqb_spec (streams x) 1) as [Hx|]; [|discriminate]. destruct (Z.eqb_spec o 4); [|discriminate].
  cbn [negb] in E. destruct (negb _); [discriminate|]. injection E as <-. cbn [streams]. lia.
Qed.
Example C24_streams_met : Forall (keeps_word streams) [alamouti_t]
  /\ Forall (keeps_word streams) [ganesan_t]
  /\ num_transmit_input_streams [dft_t Ortho; ganesan_t] 4 = Ok 1%Z
  /\ num_transmit_input_streams [dft_t Ortho; ganesan_t] 3 = Raise ValueError.
Proof.
  split; [apply Forall_cons; [apply alamouti_keeps_word|apply Forall_nil]|].
  split; [apply Forall_cons; [apply ganesan_keeps_word|apply Forall_nil]|]. split; reflexivity.
Qed.

(** The chain itself does not check the number of streams it is given. *)
Theorem C24_unchecked_stream_count_refuted :
  ~ (forall chain (s sent : stated) outs n, num_transmit_input_streams chain outs = Ok n ->
       encode_symbols chain s outs = Ok sent -> Z.of_nat (streams sent) = outs /\ Z.of_nat (streams s) = n).
Proof.
  intro H. destruct (H [dft_t Ortho] (demo_symbols 2) _ 3%Z 3%Z eq_refl eq_refl) as [_ E]. discriminate.
Qed.
Print Assumptions C24_unchecked_stream_count_refuted.

(** Infeasible requests are rejected before anything is encoded. *)
Theorem C24_infeasible_requests_are_rejected {A} (num : A -> nat) (chain : list (tcoder A)) s outs :
  ((outs < 1)%Z -> encode_symbols chain s outs = Raise ValueError)
  /\ (forall c t, chain = c :: t -> t = [] -> (t_ins c outs < 0)%Z -> encode_symbols chain s outs = Raise ValueError)
  /\ (forall n, chain <> [] -> num_transmit_input_streams chain outs = Ok n -> n <> Z.of_nat (num s) ->
      encode_streams num chain s outs = Raise ValueError).
Proof.
  split; [|split].
  - intro H. unfold encode_symbols, collect_encoder. apply Z.ltb_lt in H. rewrite H. reflexivity.
  - intros c t -> -> H. unfold encode_symbols, collect_encoder. cbn [collect_in bind hd].
    destruct (outs <? 1)%Z; [reflexivity|]. apply Z.ltb_lt in H. rewrite H. reflexivity.
  - intros n N E D. unfold encode_streams, num_transmit_input_streams in *. destruct chain as [|c t]; [congruence|].
    apply bind_ok in E as (l & E1 & E2). rewrite E1. cbn [bind]. injection E2 as <-.
    destruct (Z.eqb_spec (Z.of_nat (num s)) (hd 0%Z l)); [congruence|]. reflexivity.
Qed.
Print Assumptions C24_infeasible_requests_are_rejected.

(** Block counts: a coder honours its rate if input and output lengths are in the ratio of
    its symbol counts. *)
Definition honours_rate {A} (len : A -> nat) (c : tcoder A) : Prop :=
  forall x o y, t_apply c x o = Ok y ->
  (Z.of_nat (len x) * Zpos (t_out c) = Z.of_nat (len y) * Zpos (t_in c))%Z.
Theorem C24_encoded_block_count {A} (len : A -> nat) chain s outs sent :
  Forall (honours_rate len) chain -> encode_symbols chain s outs = Ok sent ->
  num_encoded_blocks chain (len s) = Z.of_nat (len sent).
Proof.
  intros F E. unfold encode_symbols, collect_encoder in E. destruct (outs <? 1)%Z; [discriminate|].
  apply bind_ok in E as (io & E1 & E2). destruct (collect_in_head _ _ _ E1) as [L _].
  unfold num_encoded_blocks. rewrite (run_blocks len chain F (tl io) s sent E2).
  - apply Qfloor_Z.
  - destruct io; [discriminate|]. cbn in *. lia.
  - reflexivity.
Qed.
Print Assumptions C24_encoded_block_count.
Example C24_blocks_met : Forall (honours_rate blocks) [dft_t Ortho; ganesan_t]
  /\ num_encoded_blocks [dft_t Ortho; ganesan_t] 6 = 8%Z.
Proof.
  split; [|reflexivity]. apply Forall_cons; [|apply Forall_cons; [|apply Forall_nil]].
  - intros x o y E. injection E as <-. reflexivity.
  - intros x o y E. cbn [t_apply ganesan_t] in E. unfold ganesan_encode in E.
    destruct (streams x =? 1)%nat; [|discriminate]. destruct (o =? 4)%Z; [|discriminate]. cbn [negb] in E.
    destruct (Nat.eqb_spec (blocks x mod 3) 0) as [M|]; [|discriminate]. cbn [negb] in E. apply inv_ok in E. subst y.
    cbn [t_out t_in ganesan_t blocks]. pose proof (Nat.div_mod (blocks x) 3 ltac:(lia)). lia.
Qed.

(** The reported number of decoded blocks goes in the wrong direction. *)
Theorem C24_decoded_block_count_refuted pinv :
  ~ (forall (s x : stated), decode_symbols streams [ganesan_r pinv] s = Ok x ->
       num_decoded_blocks [ganesan_r pinv] (blocks s) = Z.of_nat (blocks x)).
Proof.
  intro H. specialize (H (mkStated 1 4 4 1 (fun _ _ _ => 0) (fun _ _ _ _ => 0)) _ eq_refl).
  vm_compute in H. discriminate.
Qed.
Print Assumptions C24_decoded_block_count_refuted.
(** It is right for decoders that keep the number of blocks. *)
Theorem C24_decoded_block_count {A} (chain : list (rcoder A)) n :
  Forall (fun c => r_in c = r_out c) chain -> num_decoded_blocks chain n = Z.of_nat n.
Proof.
  intro F. unfold num_decoded_blocks.
  assert (G : forall l : list (rcoder A), Forall (fun c => r_in c = r_out c) l -> forall q,
    (q == inject_Z (Z.of_nat n))%Q ->
    (fold_left (fun q c => q / decode_rate c) l q == inject_Z (Z.of_nat n))%Q).
  { induction 1 as [|c l Hc Hl IH]; intros q Hq; [exact Hq|]. cbn [fold_left]. apply IH. rewrite Hq.
    unfold decode_rate. rewrite Hc. unfold Qeq, Qdiv, Qmult, Qinv. cbn. destruct (Z.of_nat n); cbn; lia. }
  rewrite (G (rev chain)); [apply Qfloor_Z| |reflexivity]. apply Forall_rev, F.
Qed.
Print Assumptions C24_decoded_block_count.
Example C24_decoded_met : Forall (fun c => r_in c = r_out c) [dft_r Ortho; alamouti_r].
Proof. repeat constructor. Qed.

(** *** C25 *)
(** Setting the coder at a position: in front of the chain, at its end, or instead of the one at that position *)
Theorem C25_setting_a_coder {K} (chain : list K) (i : Z) (c : K) (out : list K) :
  setitem chain i c = Ok out <->
  ((i < 0)%Z /\ out = c :: chain) \/ (i = Z.of_nat (length chain) /\ out = chain ++ [c]) \/
  (exists a old b, chain = a ++ old :: b /\ i = Z.of_nat (length a) /\ out = a ++ c :: b).
Proof.
  unfold setitem. split.
  - destruct (Z.ltb_spec i 0) as [H|H]; [intros E; injection E as <-; left; auto|].
    destruct (Z.eqb_spec i (Z.of_nat (length chain))) as [H'|H']; [intros E; injection E as <-; right; left; auto|].
    destruct (Z.ltb_spec i (Z.of_nat (length chain))) as [H2|H2]; [|discriminate]. intros E. injection E as <-. right. right.
    destruct (nth_error chain (Z.to_nat i)) as [old|] eqn:En; [|apply nth_error_None in En; lia].
    exists (firstn (Z.to_nat i) chain), old, (skipn (S (Z.to_nat i)) chain). split; [|split; [rewrite firstn_length; lia|reflexivity]].
    clear - En. revert En. generalize (Z.to_nat i). intros n. revert chain. induction n as [|n IH]; intros [|k t] En; try discriminate En; cbn in *; [congruence|]. f_equal. apply IH. exact En.
  - intros [[H ->]|[[H ->]|[a [old [b [-> [H ->]]]]]]].
    + replace (i <? 0)%Z with true by (symmetry; apply Z.ltb_lt; exact H). reflexivity.
    + replace (i <? 0)%Z with false by (symmetry; apply Z.ltb_ge; lia). replace (i =? Z.of_nat (length chain))%Z with true by (symmetry; apply Z.eqb_eq; exact H). reflexivity.
    + rewrite app_length. cbn [length]. replace (i <? 0)%Z with false by (symmetry; apply Z.ltb_ge; lia). replace (i =? Z.of_nat (length a + S (length b)))%Z with false by (symmetry; apply Z.eqb_neq; lia).
      replace (i <? Z.of_nat (length a + S (length b)))%Z with true by (symmetry; apply Z.ltb_lt; lia). subst i. rewrite Nat2Z.id, firstn_app, firstn_all, Nat.sub_diag. cbn [firstn]. rewrite app_nil_r.
      rewrite skipn_app, skipn_all2 by lia. replace (S (length a) - length a)%nat with 1%nat by lia. reflexivity.
Qed.
Print Assumptions C25_setting_a_coder.
Theorem C25_setting_beyond_the_end {K} (chain : list K) (i : Z) (c : K) : (Z.of_nat (length chain) < i)%Z <-> setitem chain i c = Raise IndexError.
Proof.
  unfold setitem. destruct (Z.ltb_spec i 0) as [H|H]; [split; [lia|discriminate]|]. destruct (Z.eqb_spec i (Z.of_nat (length chain))) as [H'|H']; [split; [lia|discriminate]|].
  destruct (Z.ltb_spec i (Z.of_nat (length chain))) as [H2|H2]; [split; [lia|discriminate]|]. split; [reflexivity|lia].
Qed.
Print Assumptions C25_setting_beyond_the_end.
(** Removing a coder, counted from the front or from the back *)
Theorem C25_removing_a_coder {K} (chain : list K) (i : Z) (c : K) (rest : list K) :
  pop_precoder chain i = Ok (c, rest) <->
  exists a b, chain = a ++ c :: b /\ rest = a ++ b /\ (i = Z.of_nat (length a) \/ i = (- 1 - Z.of_nat (length b))%Z).
Proof.
  unfold pop_precoder. cbv zeta. split.
  - set (j := if (i <? 0)%Z then (i + Z.of_nat (length chain))%Z else i). intros E. destruct ((j <? 0)%Z || (Z.of_nat (length chain) <=? j)%Z)%bool eqn:Ej; [discriminate E|].
    apply orb_false_iff in Ej as [J1 J2]. apply Z.ltb_ge in J1. apply Z.leb_gt in J2. destruct (nth_error chain (Z.to_nat j)) as [old|] eqn:En; [|discriminate E].
    assert (Ec : old = c) by congruence. assert (Er : firstn (Z.to_nat j) chain ++ skipn (S (Z.to_nat j)) chain = rest) by congruence. clear E. subst old rest.
    exists (firstn (Z.to_nat j) chain), (skipn (S (Z.to_nat j)) chain). split; [|split; [reflexivity|]].
    + clear - En. clearbody j. revert En. generalize (Z.to_nat j). intros n. revert chain. induction n as [|n IH]; intros [|k t] En; try discriminate En; cbn in *; [congruence|]. f_equal. apply IH. exact En.
    + rewrite firstn_length, skipn_length. unfold j in *. destruct (Z.ltb_spec i 0); [right|left]; lia.
  - intros [a [b [-> [-> H]]]]. rewrite app_length. cbn [length].
    assert (Ej : (if (i <? 0)%Z then (i + Z.of_nat (length a + S (length b)))%Z else i) = Z.of_nat (length a)) by (destruct (Z.ltb_spec i 0); lia). rewrite Ej.
    replace (Z.of_nat (length a) <? 0)%Z with false by (symmetry; apply Z.ltb_ge; lia). replace (Z.of_nat (length a + S (length b)) <=? Z.of_nat (length a))%Z with false by (symmetry; apply Z.leb_gt; lia). cbn [orb].
    rewrite Nat2Z.id, nth_error_app2, Nat.sub_diag by lia. cbn [nth_error]. rewrite firstn_app, firstn_all, Nat.sub_diag. cbn [firstn]. rewrite app_nil_r.
    rewrite skipn_app, skipn_all2 by lia. replace (S (length a) - length a)%nat with 1%nat by lia. reflexivity.
Qed.
Print Assumptions C25_removing_a_coder.
Example C25_editing_met : setitem [1%nat; 2%nat] 2 3%nat = Ok [1%nat; 2%nat; 3%nat] /\ setitem [1%nat; 2%nat] 0 3%nat = Ok [3%nat; 2%nat] /\ pop_precoder [1%nat; 2%nat; 3%nat] (-2) = Ok (2%nat, [1%nat; 3%nat]).
Proof. repeat split. Qed.
Theorem C25_lists_are_applied_in_reverse {K} (l : list K) : coding_from_list l = Ok (rev l).
Proof.
  unfold coding_from_list.
  assert (G : forall l acc, fold_left (fun r c => do chain <- r; setitem chain (-1) c) l (Ok acc) = Ok (rev l ++ acc : list K)).
  { induction l0 as [|c t IH]; intro acc; [reflexivity|]. 
    change (fold_left (fun r c => do chain <- r; setitem chain (-1) c) t (Ok (c :: acc)) = Ok (rev (c :: t) ++ acc)).
    rewrite IH. cbn [rev]. rewrite <- app_assoc. reflexivity. }
  rewrite G, app_nil_r. reflexivity.
Qed.
Print Assumptions C25_lists_are_applied_in_reverse.
Theorem C25_listed_order_refuted : ~ (forall (l : list nat), coding_from_list l = Ok l).
Proof. intro H. specialize (H [1%nat; 2%nat]). discriminate. Qed.
Print Assumptions C25_listed_order_refuted.

(** Serialization and deserialization reverse the chain; doing it twice restores it. *)
Theorem C25_reloading_reverses_the_chain {K} (l : list K) :
  coding_reloaded l = Ok (rev l) /\ (do l' <- coding_reloaded l; coding_reloaded l') = Ok l.
Proof.
  unfold coding_reloaded. rewrite C25_lists_are_applied_in_reverse. split; [reflexivity|].
  cbn [bind]. rewrite C25_lists_are_applied_in_reverse, rev_involutive. reflexivity.
Qed.
Print Assumptions C25_reloading_reverses_the_chain.

(** A modem given a non-empty coding object never returns. *)
Theorem C25_coding_objects_loop_forever {K} (l : list K) fuel :
  coding_from_coding fuel 0 l = match l, fuel with [], S _ => Some (Ok []) | _, _ => None end.
Proof.
  destruct l as [|c t].
  - destruct fuel; reflexivity.
  - assert (G : forall f i chain, (i < length chain)%nat -> coding_from_coding f i (chain : list K) = None).
    { induction f as [|f IH]; intros i chain H; [reflexivity|]. cbn [coding_from_coding].
      destruct (nth_error chain i) eqn:En; [|apply nth_error_None in En; lia].
      unfold setitem. change ((-1 <? 0)%Z) with true. cbn iota. apply IH. cbn. lia. }
    rewrite G by (cbn; lia). destruct fuel; reflexivity.
Qed.
Print Assumptions C25_coding_objects_loop_forever.

(** A modem given an encoder manager doubles its encoders and adds its first one again. *)
Lemma add_permutation mg m :
  Permutation (Fec_Model.mg_encoders (Fec_Model.add_encoder mg m)) (m :: Fec_Model.mg_encoders mg).
Proof.
  cbn [Fec_Model.add_encoder Fec_Model.mg_encoders].
  eapply Permutation_trans; [apply FecCodes_Proofs.execution_order_spec|]. apply Permutation_sym, Permutation_cons_append.
Qed.
Lemma fold_add_permutation l : forall mg,
  Permutation (Fec_Model.mg_encoders (fold_left Fec_Model.add_encoder l mg)) (l ++ Fec_Model.mg_encoders mg).
Proof.
  induction l as [|m l IH]; intro mg; [apply Permutation_refl|]. cbn [fold_left app].
  eapply Permutation_trans; [apply IH|]. eapply Permutation_trans; [apply Permutation_app_head, add_permutation|].
  apply Permutation_sym, Permutation_middle.
Qed.

Theorem C25_manager_encoders_are_duplicated mg e t :
  Fec_Model.mg_encoders mg = e :: t ->
  Permutation (Fec_Model.mg_encoders (modem_encoders mg)) (e :: (e :: t) ++ (e :: t))
  /\ length (Fec_Model.mg_encoders (modem_encoders mg)) = (2 * length (e :: t) + 1)%nat.
Proof.
  intro E.
  assert (P : Permutation (Fec_Model.mg_encoders (modem_encoders mg)) (e :: (e :: t) ++ (e :: t))).
  { unfold modem_encoders. rewrite E. eapply Permutation_trans; [apply fold_add_permutation|]. rewrite E.
    cbn [app]. apply perm_skip. rewrite <- app_assoc. apply Permutation_sym, Permutation_middle. }
  split; [exact P|]. apply Permutation_length in P. rewrite P. cbn [length]. rewrite app_length. cbn [length]. lia.
Qed.
Print Assumptions C25_manager_encoders_are_duplicated.
Theorem C25_empty_managers_and_lists_are_kept mg l :
  (Fec_Model.mg_encoders mg = [] -> modem_encoders mg = mg)
  /\ (Fec_Model.mg_encoders mg = [] ->
      Permutation (Fec_Model.mg_encoders (modem_encoders_from_list mg l)) l).
Proof.
  split; intro E.
  - unfold modem_encoders. rewrite E. reflexivity.
  - eapply Permutation_trans; [apply fold_add_permutation|]. rewrite E, app_nil_r. apply Permutation_refl.
Qed.
Print Assumptions C25_empty_managers_and_lists_are_kept.
Theorem C25_manager_kept_refuted :
  ~ (forall mg, Permutation (Fec_Model.mg_encoders (modem_encoders mg)) (Fec_Model.mg_encoders mg)).
Proof.
  intro H.
  set (m := Fec_Model.mkMember true 1 1 (fun _ b => b) (fun _ b => b) [] []).
  set (mg := Fec_Model.mkManager [m] true true (fun _ => false) 0).
  specialize (H mg). destruct (C25_manager_encoders_are_duplicated mg m [] eq_refl) as [_ L].
  apply Permutation_length in H. rewrite L in H. discriminate.
Qed.
Print Assumptions C25_manager_kept_refuted.
