(** Least squares channel estimation: property C118. *)
From Coq Require Import List Arith Bool Reals Lra Lia.
From Coquelicot Require Import Complex.
From Verif Require Import Base BaseLemmas Grid_Model Grid_Spec Grid_Proofs Lse_Model Lse_Spec Lse_Proofs.
Import ListNotations.
Local Open Scope nat_scope.

(** Every received frame of the right shape is estimated if its references can be interpolated *)
Theorem C118_estimated : forall linear nearest w data grid mask received,
  framed w data grid mask -> shape (words_per_frame w) (w_sub w) received ->
  (forall values places, exists out, linear (positions REFERENCE (words_per_frame w) (w_sub w) mask) values places = Ok out) ->
  exists t, estimate linear nearest w 1 received = Ok t.
Proof.
  intros linear nearest w data grid mask received [Hp [Hn [Hpl Hm]]] [Hs1 Hs2] HL. destruct (frame_references w data grid mask Hp Hn Hpl Hm) as [Hrefs _].
  unfold estimate. cbn [Nat.eqb negb]. rewrite Hm. cbn [bind]. cbv zeta. rewrite Hs1, Nat.eqb_refl.
  replace (forallb (fun r => length r =? w_sub w) received) with true by (symmetry; apply forallb_forall; intros r Hr; apply Nat.eqb_eq; rewrite Forall_forall in Hs2; apply Hs2; exact Hr). cbn [negb andb].
  set (stems := where_ (words_per_frame w) (w_sub w) (is_reference mask)) in *. rewrite map_length.
  replace (pilot_symbols w (@length (nat * nat) stems)) with (Ok (map (entry (RtoC 0) grid) stems)) by (symmetry; exact Hrefs). cbn [bind].
  match goal with |- context [linear stems ?v ?h] => destruct (HL v h) as [out Ho]; change (linear stems v h = Ok out) in Ho; rewrite Ho end.
  match goal with |- context [match ?h with [] => _ | _ :: _ => _ end] => destruct h as [|h0 hs] end; cbn [bind]; eexists; reflexivity.
Qed.
Print Assumptions C118_estimated.

(** Frames of the examples: references at the first and last of three subcarriers in two words; three references in two words of two subcarriers *)
Definition place_dec : forall p q : place_of, {p = q} + {p <> q}.
Proof. decide equality; apply Nat.eq_dec. Defined.
Definition wide : @wave C := mkWave 3 [mkResource 1 NOPREFIX 0 1 [mkElement REFERENCE 1; mkElement DATA 1; mkElement REFERENCE 1]] [SymSec 2 [0] 0] None [RtoC 2] true (fun n => repeat (RtoC 1) n).
Definition wide_mask : list (list (option etype)) := [[Some REFERENCE; Some DATA; Some REFERENCE]; [Some REFERENCE; Some DATA; Some REFERENCE]].
Definition wide_grid : list (list C) := [[RtoC 2; RtoC 3; RtoC 2]; [RtoC 2; RtoC 5; RtoC 2]].
Definition wide_linear (points : list place_of) (values : list C) (places : list place_of) : result (list (option C)) :=
  if list_eq_dec place_dec points [(0, 0); (0, 2); (1, 0); (1, 2)]
  then if list_eq_dec place_dec places [(0, 1); (1, 1)]
       then match values with
            | [a; b; c; d] => Ok [Some (Cplus (Cmult (RtoC (/ 2)) a) (Cmult (RtoC (/ 2)) b)); Some (Cplus (Cmult (RtoC (/ 2)) c) (Cmult (RtoC (/ 2)) d))]
            | _ => Raise ValueError
            end
       else Raise RuntimeError
  else Raise RuntimeError.
Definition first_nearest (points : list place_of) (values : list C) (places : list place_of) : list C := map (fun _ => hd (RtoC 0) values) places.
Definition corner : @wave C := mkWave 2 [mkResource 1 NOPREFIX 0 1 [mkElement REFERENCE 2]; mkResource 1 NOPREFIX 0 1 [mkElement REFERENCE 1; mkElement DATA 1]]
  [SymSec 1 [0; 1] 0] None [RtoC 2] true (fun n => repeat (RtoC 1) n).
Definition corner_mask : list (list (option etype)) := [[Some REFERENCE; Some REFERENCE]; [Some REFERENCE; Some DATA]].
Definition corner_grid : list (list C) := [[RtoC 2; RtoC 2]; [RtoC 2; RtoC 3]].
Definition corner_linear (points : list place_of) (values : list C) (places : list place_of) : result (list (option C)) :=
  if list_eq_dec place_dec points [(0, 0); (0, 1); (1, 0)] then if list_eq_dec place_dec places [(1, 1)] then Ok [None] else Raise RuntimeError else Raise RuntimeError.
Lemma wide_interpolates : interpolates wide_linear.
Proof.
  intros points values places out Hl H. unfold wide_linear in H. destruct (list_eq_dec place_dec points _) as [->|]; [|discriminate]. destruct (list_eq_dec place_dec places _) as [->|]; [|discriminate].
  destruct values as [|a [|b [|c [|d [|]]]]]; try discriminate. injection H as <-. constructor; [|constructor; [|constructor]].
  - exists [(/ 2)%R; (/ 2)%R; 0%R; 0%R]. cbn [combine map rtotal ctotal fst snd coordinates INR length].
    split; [reflexivity|]. split; [do 4 (constructor; [lra|]); constructor|]. split; [lra|]. split; [lra|]. split; [lra|]. ring.
  - exists [0%R; 0%R; (/ 2)%R; (/ 2)%R]. cbn [combine map rtotal ctotal fst snd coordinates INR length].
    split; [reflexivity|]. split; [do 4 (constructor; [lra|]); constructor|]. split; [lra|]. split; [lra|]. split; [lra|]. ring.
Qed.
Lemma corner_interpolates : interpolates corner_linear.
Proof.
  intros points values places out Hl H. unfold corner_linear in H. destruct (list_eq_dec place_dec points _) as [->|]; [|discriminate]. destruct (list_eq_dec place_dec places _) as [->|]; [|discriminate].
  injection H as <-. constructor; [|constructor]. intros [ws [H1 [H2 [H3 [H4 H5]]]]]. destruct ws as [|x [|y [|z [|]]]]; try discriminate.
  cbn [combine map rtotal fst snd coordinates INR] in *. inversion H2; subst. lra.
Qed.
Lemma first_chooses : chooses first_nearest.
Proof.
  intros points values places Hl Hn. split; [apply map_length|]. apply Forall_forall. intros z Hz. apply in_map_iff in Hz. destruct Hz as [_ [<- _]].
  destruct values as [|v values]; [destruct points; [congruence|discriminate]|]. left. reflexivity.
Qed.
Lemma wide_framed : framed wide [RtoC 3; RtoC 5] wide_grid wide_mask.
Proof. split; [split; [intros n; apply repeat_length|repeat constructor]|]. split; [reflexivity|]. split; reflexivity. Qed.
Lemma corner_framed : framed corner [RtoC 3] corner_grid corner_mask.
Proof. split; [split; [intros n; apply repeat_length|repeat constructor]|]. split; [reflexivity|]. split; reflexivity. Qed.
Lemma wide_estimated channel noise : exists t, estimate wide_linear first_nearest wide 1 (over channel noise (words_per_frame wide) (w_sub wide) wide_grid) = Ok t.
Proof. eexists. reflexivity. Qed.
Lemma corner_estimated channel noise : exists t, estimate corner_linear first_nearest corner 1 (over channel noise (words_per_frame corner) (w_sub corner) corner_grid) = Ok t.
Proof. eexists. reflexivity. Qed.
Example C118_estimated_met : framed corner [RtoC 3] corner_grid corner_mask /\ shape (words_per_frame corner) (w_sub corner) corner_grid /\
  let linear := fun (_ : list place_of) (_ : list C) (places : list place_of) => Ok (map (fun _ => @None C) places) in
  forall values places, exists out, linear (positions REFERENCE (words_per_frame corner) (w_sub corner) corner_mask) values places = Ok out.
Proof. split; [exact corner_framed|]. split; [split; [reflexivity|repeat constructor]|]. intros linear values places. eexists. reflexivity. Qed.

(** ** References *)
(** At the references of a frame, the estimate is the channel, disturbed by the noise over the reference symbol *)
Theorem C118_references : forall linear nearest w data grid mask channel noise t p,
  framed w data grid mask -> estimate linear nearest w 1 (over channel noise (words_per_frame w) (w_sub w) grid) = Ok t ->
  cell w p -> entry None mask p = Some REFERENCE -> entry (RtoC 0) grid p <> RtoC 0 ->
  t p = Some (Cplus (channel p) (Cdiv (noise p) (entry (RtoC 0) grid p))).
Proof.
  intros linear nearest w data grid mask channel noise t p [Hp [Hn [Hpl Hm]]] He [Hi Hj] Hr Hz.
  destruct (frame_references w data grid mask Hp Hn Hpl Hm) as [Hrefs _].
  rewrite (at_stem linear nearest w mask (entry (RtoC 0) grid) _ t Hm (over_shape channel noise _ _ grid) Hrefs He p).
  - rewrite over_entry by assumption. f_equal. field. exact Hz.
  - apply in_where. split; [split; assumption|]. unfold is_reference. rewrite Hr. reflexivity.
Qed.
Print Assumptions C118_references.
Example C118_references_met : framed wide [RtoC 3; RtoC 5] wide_grid wide_mask /\ cell wide (1, 2) /\ entry None wide_mask (1, 2) = Some REFERENCE /\ entry (RtoC 0) wide_grid (1, 2) <> RtoC 0 /\
  forall channel noise, exists t, estimate wide_linear first_nearest wide 1 (over channel noise (words_per_frame wide) (w_sub wide) wide_grid) = Ok t.
Proof.
  split; [exact wide_framed|]. split; [split; cbv; lia|]. split; [reflexivity|]. split; [|exact wide_estimated]. cbn. intros E. apply RtoC_inj in E. lra.
Qed.

(** ** Everywhere *)
(** Over a channel that is the same for every cell, no estimate is off by more than the largest disturbance of a reference, whatever the interpolations choose *)
Theorem C118_flat : forall linear nearest w data grid mask h noise t limit least,
  interpolates linear -> chooses nearest -> framed w data grid mask -> (0 < least)%R ->
  (forall p, cell w p -> entry None mask p = Some REFERENCE -> (Cmod (noise p) <= limit)%R /\ (least <= Cmod (entry (RtoC 0) grid p))%R) ->
  (exists p, cell w p /\ entry None mask p = Some REFERENCE) ->
  estimate linear nearest w 1 (over (fun _ => h) noise (words_per_frame w) (w_sub w) grid) = Ok t ->
  forall p, cell w p -> exists z, t p = Some z /\ (Cmod (Cminus z h) <= limit / least)%R.
Proof.
  intros linear nearest w data grid mask h noise t limit least HL HN [Hp [Hn [Hpl Hm]]] Hpos Hb [p0 [Hc0 Hr0]] He p [Hi Hj].
  destruct (frame_references w data grid mask Hp Hn Hpl Hm) as [Hrefs _].
  assert (Q : forall p, In p (where_ (words_per_frame w) (w_sub w) (is_reference mask)) ->
    (Cmod (Cminus (Cdiv (entry (RtoC 0) (over (fun _ => h) noise (words_per_frame w) (w_sub w) grid) p) (entry (RtoC 0) grid p)) h) <= limit / least)%R).
  { intros p' Hin. apply in_where in Hin. destruct Hin as [[Hi' Hj'] Hr']. assert (Hr : entry None mask p' = Some REFERENCE) by (unfold is_reference in Hr'; destruct (entry None mask p') as [[| |]|]; try discriminate; reflexivity).
    destruct (Hb p' (conj Hi' Hj') Hr) as [B1 B2]. assert (Hnz : entry (RtoC 0) grid p' <> RtoC 0) by (intros E; rewrite E, Cmod_0 in B2; lra).
    rewrite over_entry by assumption. replace (Cminus _ h) with (Cdiv (noise p') (entry (RtoC 0) grid p')) by (field; exact Hnz). rewrite Cmod_div by exact Hnz.
    apply Rmult_le_compat; [apply Cmod_ge_0|left; apply Rinv_0_lt_compat; lra|exact B1|]. apply Rinv_le_contravar; assumption. }
  eapply (everywhere linear nearest w mask (entry (RtoC 0) grid) _ t Hm (over_shape _ noise _ _ grid) Hrefs He (fun z => (Cmod (Cminus z h) <= limit / least)%R)).
  - intros E. assert (K : In p0 (where_ (words_per_frame w) (w_sub w) (is_reference mask))) by (apply in_where; split; [exact Hc0|unfold is_reference; rewrite Hr0; reflexivity]). rewrite E in K. destruct K.
  - exact Q.
  - intros p' z Hw. eapply mean_near; [|exact Hw|]; [apply map_length|]. apply Forall_map. apply Forall_forall. exact Q.
  - intros v Hv. eapply HL; [|exact Hv]. apply map_length.
  - exact HN.
  - exact Hi.
  - exact Hj.
Qed.
Print Assumptions C118_flat.
Example C118_flat_met : interpolates corner_linear /\ chooses first_nearest /\ framed corner [RtoC 3] corner_grid corner_mask /\
  (forall p, cell corner p -> entry None corner_mask p = Some REFERENCE -> (Cmod (RtoC (/ 4)) <= / 4)%R /\ (2 <= Cmod (entry (RtoC 0) corner_grid p))%R) /\
  (exists p, cell corner p /\ entry None corner_mask p = Some REFERENCE) /\
  exists t, estimate corner_linear first_nearest corner 1 (over (fun _ => RtoC 3) (fun _ => RtoC (/ 4)) (words_per_frame corner) (w_sub corner) corner_grid) = Ok t.
Proof.
  split; [exact corner_interpolates|]. split; [exact first_chooses|]. split; [exact corner_framed|]. split.
  - intros [i j] [Hi Hj] Hr. cbn in Hi, Hj. split; [rewrite Cmod_R, Rabs_pos_eq; lra|].
    destruct i as [|[|]], j as [|[|]]; try lia; try discriminate; cbn; rewrite Cmod_R, Rabs_pos_eq; lra.
  - split; [exists (0, 0); split; [split; cbv; lia|reflexivity]|apply corner_estimated].
Qed.

(** A channel that changes linearly over words and subcarriers is estimated exactly at every cell that the references surround *)
Theorem C118_linear : forall linear nearest w data grid mask a b c t p,
  interpolates linear -> framed w data grid mask ->
  (forall p, cell w p -> entry None mask p = Some REFERENCE -> entry (RtoC 0) grid p <> RtoC 0) ->
  let channel := fun p => Cplus a (Cplus (Cmult b (RtoC (INR (fst p)))) (Cmult c (RtoC (INR (snd p))))) in
  estimate linear nearest w 1 (over channel quiet (words_per_frame w) (w_sub w) grid) = Ok t ->
  cell w p -> surrounded (positions REFERENCE (words_per_frame w) (w_sub w) mask) p -> t p = Some (channel p).
Proof.
  intros linear nearest w data grid mask a b c t p HL HF Hnz channel He [Hi Hj] Hs. pose proof HF as [Hp [Hn [Hpl Hm]]].
  destruct (frame_references w data grid mask Hp Hn Hpl Hm) as [Hrefs _].
  assert (isr : forall p, is_reference mask p = true -> entry None mask p = Some REFERENCE) by (intros p' Hr'; unfold is_reference in Hr'; destruct (entry None mask p') as [[| |]|]; try discriminate; reflexivity).
  destruct (is_reference mask p) eqn:Er.
  - rewrite (C118_references linear nearest w data grid mask channel quiet t p HF He (conj Hi Hj) (isr p Er) (Hnz p (conj Hi Hj) (isr p Er))). f_equal. unfold quiet, Cdiv. rewrite Cmult_0_l. apply Cplus_0_r.
  - pose (stems := where_ (words_per_frame w) (w_sub w) (is_reference mask)). pose (holes := where_ (words_per_frame w) (w_sub w) (fun p => negb (is_reference mask p))).
    pose (q := fun p : place_of => Cdiv (entry (RtoC 0) (over channel quiet (words_per_frame w) (w_sub w) grid) p) (entry (RtoC 0) grid p)).
    assert (Q : map q stems = map channel stems).
    { apply map_ext_in. intros p' Hin. apply in_where in Hin. destruct Hin as [[Hi' Hj'] Hr']. unfold q. rewrite over_entry by assumption. unfold quiet. field. apply Hnz; [split; assumption|apply isr; exact Hr']. }
    assert (Hin : In p holes) by (apply in_where; rewrite Er; auto).
    destruct (at_hole linear nearest w mask (entry (RtoC 0) grid) _ t Hm (over_shape channel quiet _ _ grid) Hrefs He p Hin) as [v [Hv [o [Ho Ht]]]].
    { intros v Hv. symmetry. eapply Forall2_len. apply (HL _ _ _ _ (map_length _ _) Hv). }
    pose proof (Forall2_combine _ _ _ (HL _ _ _ _ (map_length _ _) Hv) p o Ho) as K. destruct o as [z|].
    + rewrite (Ht z eq_refl). f_equal. fold q stems in K. rewrite Q in K. apply (mean_plane a b c stems p z). exact K.
    + exfalso. apply K. exact Hs.
Qed.
Print Assumptions C118_linear.
Example C118_linear_met : interpolates wide_linear /\ framed wide [RtoC 3; RtoC 5] wide_grid wide_mask /\
  (forall p, cell wide p -> entry None wide_mask p = Some REFERENCE -> entry (RtoC 0) wide_grid p <> RtoC 0) /\
  (forall channel, exists t, estimate wide_linear first_nearest wide 1 (over channel quiet (words_per_frame wide) (w_sub wide) wide_grid) = Ok t) /\
  cell wide (1, 1) /\ surrounded (positions REFERENCE (words_per_frame wide) (w_sub wide) wide_mask) (1, 1).
Proof.
  split; [exact wide_interpolates|]. split; [exact wide_framed|]. split; [|split; [intros channel; apply wide_estimated|split; [split; cbv; lia|]]].
  - intros [i j] [Hi Hj] Hr. cbn in Hi, Hj. destruct i as [|[|]], j as [|[|[|]]]; try lia; try discriminate; cbn; intros E; apply RtoC_inj in E; lra.
  - exists [0%R; 0%R; (/ 2)%R; (/ 2)%R]. change (positions REFERENCE (words_per_frame wide) (w_sub wide) wide_mask) with [(0, 0); (0, 2); (1, 0); (1, 2)].
    cbn [combine map rtotal ctotal fst snd coordinates INR length].
    split; [reflexivity|]. split; [do 4 (constructor; [lra|]); constructor|]. split; [lra|]. split; lra.
Qed.

(** Data that went over a quiet channel with a single coefficient is recovered by zero forcing *)
Theorem C118_recovered : forall linear nearest w data grid mask h t,
  interpolates linear -> chooses nearest -> framed w data grid mask -> h <> RtoC 0 ->
  (forall p, cell w p -> entry None mask p = Some REFERENCE -> entry (RtoC 0) grid p <> RtoC 0) -> (exists p, cell w p /\ entry None mask p = Some REFERENCE) ->
  let received := over (fun _ => h) quiet (words_per_frame w) (w_sub w) grid in
  estimate linear nearest w 1 received = Ok t ->
  equalize (words_per_frame w) (w_sub w) received t = grid /\ pick w (equalize (words_per_frame w) (w_sub w) received t) = Ok data.
Proof.
  intros linear nearest w data grid mask h t HL HN HF Hh Hnz Hex received He. pose proof HF as [Hp [Hn [Hpl Hm]]].
  destruct (frame_references w data grid mask Hp Hn Hpl Hm) as [Hrefs [[Sg1 Sg2] Hpick]].
  assert (T : forall p, cell w p -> t p = Some h).
  { intros p [Hi Hj]. destruct (everywhere linear nearest w mask (entry (RtoC 0) grid) _ t Hm (over_shape _ quiet _ _ grid) Hrefs He (fun z => z = h)) with (p := p) as [z [Hz ->]]; [| | | |exact HN|exact Hi|exact Hj|exact Hz].
    - destruct Hex as [p0 [Hc0 Hr0]]. intros E. assert (K : In p0 (where_ (words_per_frame w) (w_sub w) (is_reference mask))) by (apply in_where; split; [exact Hc0|unfold is_reference; rewrite Hr0; reflexivity]). rewrite E in K. destruct K.
    - intros p' Hin. apply in_where in Hin. destruct Hin as [[Hi' Hj'] Hr']. rewrite over_entry by assumption. unfold quiet. field. apply Hnz; [split; assumption|].
      unfold is_reference in Hr'. destruct (entry None mask p') as [[| |]|]; try discriminate; reflexivity.
    - intros p' z Hw. assert (K : (Cmod (Cminus z h) <= 0)%R).
      { eapply mean_near; [|exact Hw|]; [apply map_length|]. apply Forall_map. apply Forall_forall. intros p2 Hin. apply in_where in Hin. destruct Hin as [[Hi' Hj'] Hr']. rewrite over_entry by assumption.
        replace (Cminus _ h) with (RtoC 0); [rewrite Cmod_0; lra|]. unfold quiet. field. apply Hnz; [split; assumption|].
        unfold is_reference in Hr'. destruct (entry None mask p2) as [[| |]|]; try discriminate; reflexivity. }
      assert (K2 : Cminus z h = RtoC 0) by (apply Cmod_eq_0; pose proof (Cmod_ge_0 (Cminus z h)); lra). replace z with (Cplus (Cminus z h) h) by ring. rewrite K2. ring.
    - intros v Hv. eapply HL; [|exact Hv]. apply map_length. }
  assert (G : equalize (words_per_frame w) (w_sub w) received t = grid).
  { unfold equalize. rewrite <- Sg1. apply (nth_ext _ _ [] []); [rewrite map_length, seq_length; reflexivity|]. rewrite map_length, seq_length. intros i Hi.
    rewrite (nth_tab (fun i => map (fun j => Cdiv (entry (RtoC 0) received (i, j)) (value t (i, j))) (seq 0 (w_sub w))) [] (length grid) i Hi).
    assert (Lr : length (nth i grid []) = w_sub w) by (rewrite Forall_forall in Sg2; apply Sg2, nth_In, Hi).
    apply (nth_ext _ _ (RtoC 0) (RtoC 0)); [rewrite map_length, seq_length; symmetry; exact Lr|]. rewrite map_length, seq_length. intros j Hj. rewrite nth_tab by exact Hj.
    unfold received. rewrite over_entry by (cbn [fst snd]; lia). unfold value. rewrite T by (split; cbn [fst snd]; lia). unfold entry, quiet. cbn [fst snd]. field. exact Hh. }
  split; [exact G|]. rewrite G. exact Hpick.
Qed.
Print Assumptions C118_recovered.
Example C118_recovered_met : interpolates wide_linear /\ chooses first_nearest /\ framed wide [RtoC 3; RtoC 5] wide_grid wide_mask /\ Ci <> RtoC 0 /\
  (forall p, cell wide p -> entry None wide_mask p = Some REFERENCE -> entry (RtoC 0) wide_grid p <> RtoC 0) /\ (exists p, cell wide p /\ entry None wide_mask p = Some REFERENCE) /\
  exists t, estimate wide_linear first_nearest wide 1 (over (fun _ => Ci) quiet (words_per_frame wide) (w_sub wide) wide_grid) = Ok t.
Proof.
  split; [exact wide_interpolates|]. split; [exact first_chooses|]. split; [exact wide_framed|]. split; [intros E; injection E as E; lra|]. split; [apply C118_linear_met|].
  split; [exists (0, 0); split; [split; cbv; lia|reflexivity]|apply wide_estimated].
Qed.

(** ** Failures *)
Theorem C118_streams : forall linear nearest w streams received, streams <> 1 -> estimate linear nearest w streams received = Raise NotImplementedError.
Proof. intros linear nearest w streams received H. unfold estimate. apply Nat.eqb_neq in H. rewrite H. reflexivity. Qed.
Print Assumptions C118_streams.
Example C118_streams_met : 2 <> 1.
Proof. lia. Qed.

(** No frame that carries its references in a single word, next to other symbols, can be estimated: the triangulation of points on a line raises *)
Theorem C118_one_word_refuted : forall linear nearest w data grid mask channel noise,
  (forall points values places, points <> [] -> in_one_word points -> linear points values places = Raise RuntimeError) ->
  framed w data grid mask ->
  (exists p, cell w p /\ entry None mask p = Some REFERENCE) -> (exists p, cell w p /\ entry None mask p <> Some REFERENCE) ->
  in_one_word (positions REFERENCE (words_per_frame w) (w_sub w) mask) ->
  estimate linear nearest w 1 (over channel noise (words_per_frame w) (w_sub w) grid) = Raise RuntimeError.
Proof.
  intros linear nearest w data grid mask channel noise HQ [Hp [Hn [Hpl Hm]]] [p0 [Hc0 Hr0]] [p1 [Hc1 Hr1]] Hone.
  destruct (frame_references w data grid mask Hp Hn Hpl Hm) as [Hrefs _]. unfold estimate. cbn [Nat.eqb negb]. rewrite Hm. cbn [bind]. cbv zeta. rewrite over_shape. cbn [negb].
  set (stems := where_ (words_per_frame w) (w_sub w) (is_reference mask)) in *. rewrite map_length.
  replace (pilot_symbols w (@length (nat * nat) stems)) with (Ok (map (entry (RtoC 0) grid) stems)) by (symmetry; exact Hrefs). cbn [bind].
  set (holes := where_ (words_per_frame w) (w_sub w) (fun p : place_of => negb (is_reference mask p))).
  assert (Hh : In p1 holes).
  { apply in_where. split; [exact Hc1|]. unfold is_reference. destruct (entry None mask p1) as [[| |]|]; try reflexivity. congruence. }
  assert (Hs : stems <> []).
  { intros E. assert (K : In p0 stems) by (apply in_where; split; [exact Hc0|unfold is_reference; rewrite Hr0; reflexivity]). rewrite E in K. destruct K. }
  clearbody holes. destruct holes as [|h0 hs]; [destruct Hh|]. cbv iota. rewrite (HQ stems _ (h0 :: hs) Hs Hone). reflexivity.
Qed.
Print Assumptions C118_one_word_refuted.
Example C118_one_word_met :
  let single := mkWave 3 (w_res wide) [SymSec 1 [0] 0] None [RtoC 2] true (w_rand wide) in
  let mask := [[Some REFERENCE; Some DATA; Some REFERENCE]] in
  framed single [RtoC 3] [[RtoC 2; RtoC 3; RtoC 2]] mask /\ (exists p, cell single p /\ entry None mask p = Some REFERENCE) /\ (exists p, cell single p /\ entry None mask p <> Some REFERENCE) /\
  in_one_word (positions REFERENCE (words_per_frame single) (w_sub single) mask).
Proof.
  intros single mask. split; [split; [split; [intros n; apply repeat_length|repeat constructor]|split; [reflexivity|split; reflexivity]]|].
  split; [exists (0, 0); split; [split; cbv; lia|reflexivity]|]. split; [exists (0, 1); split; [split; cbv; lia|discriminate]|]. exists 0. repeat constructor.
Qed.

(** The references of pilot sections are compared to the symbols of the waveform's sequence instead of those that were sent: over an ideal, quiet channel, the estimate of a leading
    pilot section is the quotient of the two *)
Theorem C118_pilot_sections_refuted : forall linear nearest w data grid elements rest t j,
  pilots_ok w -> w_struct w = PilotSec (Some elements) :: rest -> place (RtoC 0) w data = Ok grid ->
  estimate linear nearest w 1 (over (fun _ => RtoC 1) quiet (words_per_frame w) (w_sub w) grid) = Ok t -> j < w_sub w ->
  t (0, j) = Some (Cdiv (nth (j mod length elements) elements (RtoC 0)) (nth (j mod length (w_seq w)) (w_seq w) (RtoC 0))).
Proof.
  intros linear nearest w data grid elements rest t j Hp Hst Hpl He Hj. apply (place_inv (RtoC 0) w data grid Hp) in Hpl. destruct Hpl as [Hf [refs0 [mask [Hr0 [Hm [Hd [Sg [Sm [Gd [Gr [Gb Pk]]]]]]]]]]].
  rewrite (gather_positions (RtoC 0) REFERENCE _ _ mask grid Sm Sg) in Gr. change (positions REFERENCE (words_per_frame w) (w_sub w) mask) with (where_ (words_per_frame w) (w_sub w) (is_reference mask)) in Gr.
  set (stems := where_ (words_per_frame w) (w_sub w) (is_reference mask)) in *.
  assert (W : 0 < words_per_frame w) by (unfold words_per_frame; rewrite Hst; cbn [map sum sec_words]; lia).
  assert (M0 : forall k, k < w_sub w -> entry None mask (0, k) = Some REFERENCE).
  { intros k Hk. unfold resource_mask in Hm. rewrite Hst in Hm. cbn [masks] in Hm. destruct (w_sub w <? sec_subcarriers w (PilotSec (Some elements))); [discriminate|].
    destruct (masks w rest) as [m'|]; cbn [bind] in Hm; [|discriminate]. injection Hm as <-. unfold entry. cbn [fst snd sec_mask map app nth]. rewrite app_nth1 by (rewrite repeat_length; exact Hk). apply nth_repeat_lt. exact Hk. }
  assert (S0 : exists l, stems = map (fun k => (0, k)) (seq 0 (w_sub w)) ++ l).
  { unfold stems, where_, cells. destruct (words_per_frame w) as [|n]; [lia|]. cbn [seq list_prod]. rewrite filter_app. eexists. f_equal. apply filter_all.
    intros p Hin. apply in_map_iff in Hin. destruct Hin as [k [<- Hk]]. apply in_seq in Hk. unfold is_reference. rewrite M0 by lia. reflexivity. }
  destruct S0 as [l S0]. assert (Nj : nth_error stems j = Some (0, j)).
  { rewrite S0, nth_error_app1 by (rewrite map_length, seq_length; exact Hj). rewrite nth_error_map, nth_error_seq. destruct (Nat.ltb_spec j (w_sub w)); [reflexivity|lia]. }
  assert (Ls : j < length stems) by (apply nth_error_Some; congruence).
  assert (Hok : exists refs, pilot_symbols w (length stems) = Ok refs).
  { unfold estimate in He. cbn [Nat.eqb negb] in He. rewrite Hm in He. cbn [bind] in He. cbv zeta in He. rewrite over_shape in He. cbn [negb] in He. fold stems in He. rewrite map_length in He.
    destruct (pilot_symbols w (length stems)) as [refs|e] eqn:E; [exists refs; reflexivity|]. exfalso. replace (pilot_symbols w (@length (nat * nat) stems)) with (@Raise (list C) e) in He by (symmetry; exact E). discriminate. }
  destruct Hok as [refs Hrefs]. pose proof (pilot_symbols_spec w _ _ Hrefs) as [Lr Nr].
  assert (Nd : NoDup stems) by (unfold stems, where_; apply NoDup_filter; unfold cells; apply NoDup_prod; apply seq_NoDup).
  destruct (tabulated stems refs Nd Lr (RtoC 0)) as [f Hf']. rewrite Hf' in Hrefs.
  assert (K1 : f (0, j) = nth (j mod length (w_seq w)) (w_seq w) (RtoC 0)).
  { assert (E : nth_error refs j = Some (f (0, j))) by (rewrite Hf'; exact (map_nth_error f j stems Nj)). rewrite Nr in E by exact Ls. symmetry. apply nth_error_nth. exact E. }
  assert (K2 : entry (RtoC 0) grid (0, j) = nth (j mod length elements) elements (RtoC 0)).
  { assert (E : nth_error (map (entry (RtoC 0) grid) stems) j = Some (entry (RtoC 0) grid (0, j))) by (exact (map_nth_error (entry (RtoC 0) grid) j stems Nj)). rewrite Gr, Hst in E. cbn [expected_refs] in E.
    unfold cycled in E. rewrite nth_error_app1 in E by (rewrite map_length, seq_length; exact Hj). rewrite nth_error_map, nth_error_seq in E. destruct (Nat.ltb_spec j (w_sub w)); [|lia]. cbn [option_map] in E. injection E as E. symmetry. exact E. }
  rewrite (at_stem linear nearest w mask f _ t Hm (over_shape _ quiet _ _ grid) Hrefs He (0, j)) by (apply nth_error_In with j; exact Nj).
  rewrite over_entry by assumption. rewrite K1, K2. unfold quiet. f_equal. f_equal. ring.
Qed.
Print Assumptions C118_pilot_sections_refuted.
Example C118_pilot_sections_met :
  let piloted := mkWave 3 (w_res wide) [PilotSec (Some [RtoC 3]); SymSec 1 [0] 0] None [RtoC 2] true (w_rand wide) in
  let linear := fun (_ : list place_of) (_ : list C) (places : list place_of) => Ok (map (fun _ => @None C) places) in
  pilots_ok piloted /\ exists grid t, place (RtoC 0) piloted [RtoC 3] = Ok grid /\
  estimate linear first_nearest piloted 1 (over (fun _ => RtoC 1) quiet (words_per_frame piloted) (w_sub piloted) grid) = Ok t /\ 2 < w_sub piloted /\ Cdiv (RtoC 3) (RtoC 2) <> RtoC 1.
Proof.
  intros piloted linear. split; [split; [intros n; apply repeat_length|repeat constructor]|]. eexists. eexists. split; [reflexivity|]. split; [reflexivity|]. split; [cbv; lia|].
  rewrite <- RtoC_div. 2: lra. intros E. apply RtoC_inj in E. lra.
Qed.
