(** C19, C20: the transformations of orthogonal waveforms are undone at the receiver. *)
From Coq Require Import Reals List Arith Bool Lia Lra.
From Coquelicot Require Import Complex.
From Verif Require Import Base BaseLemmas Cplx Cplx_Proofs Grid_Model Grid_Spec Grid_Proofs
  GridSamples_Proofs Ofdm_Model Ofdm_Proofs.
Import ListNotations.
Open Scope R_scope.
Open Scope C_scope.

(** What the constructors of pilot sections guarantee of a leading pilot section. *)
Definition lead_ok (w : @wave C) : Prop :=
  (forall n, length (w_rand w n) = n) /\ w_pilot w <> Some (Some []).

(** OFDM transmission of a grid: the samples of the frame, and what the receiver gets. *)
Definition ofdm_modulate (junk : C) (dc : bool) (w : wave) (os : nat) (grid : list (list C)) :=
  modulate (RtoC 0) junk (ofdm_forward dc (w_sub w) os) w os grid.
Definition ofdm_demodulate (dc : bool) (w : wave) (os : nat) (samples : list C) :=
  demodulate (ofdm_backward dc (w_sub w) os) (ofdm_correct dc (w_sub w) os) w os samples.

Lemma lead_length (fwd : list (list C) -> list (list C)) (w : wave) os :
  lead_ok w -> (forall x, length x = w_sub w -> exists y, fwd [x] = [y] /\ length y = (w_sub w * os)%nat) ->
  forall e, w_pilot w = Some e ->
  length (concat (fwd [pilot_sequence w e (w_sub w)])) = slot w os.
Proof.
  intros [Hr He] F e E. destruct (F (pilot_sequence w e (w_sub w))) as (y & Ey & Ly).
  - apply length_pilot_sequence; [exact Hr|]. intros ->. congruence.
  - rewrite Ey. cbn [concat]. rewrite app_nil_r. exact Ly.
Qed.

Lemma ofdm_shape dc n os g words : (0 < n)%nat -> (0 < os)%nat -> shape words n g ->
  shape words (n * os) (ofdm_forward dc n os g).
Proof.
  intros Hn Ho [L F]. split; [unfold ofdm_forward; rewrite map_length; exact L|].
  unfold ofdm_forward. rewrite Forall_map. revert F. apply Forall_impl. intros r Hr.
  rewrite length_forward by assumption. lia.
Qed.

Lemma sections_ok (w : @wave C) os : prefixes_ok w os -> Forall (fun s => sec_offset s = 0%nat) (w_struct w) ->
  Forall (sec_res_ok w os) (w_struct w).
Proof.
  intros X O. rewrite Forall_forall in O |- *. intros s Hs. specialize (O s Hs).
  destruct s as [reps pat off|n|e]; cbn [sec_res_ok sec_offset] in *; auto. intros i Hi. split.
  - intro Hc. eapply X; eauto.
  - auto.
Qed.

(** A demonstration waveform: 2 subcarriers, cyclic prefix of half a symbol, guard,
    configured pilots. *)
Definition cdemo (off : nat) (l : list (@section C)) : @wave C :=
  mkWave 2 [mkResource 1 CYCLIC 1 2 [mkElement DATA 2]] (SymSec 2 [0%nat] off :: l)
    (Some (Some [RtoC 1])) [RtoC 1] true (fun n => repeat (RtoC 0) n).
Definition cgrid : list (list C) := [[RtoC 1; RtoC 2]; [RtoC 3; RtoC 4]].
Lemma cdemo_lead off l : lead_ok (cdemo off l).
Proof. split; [intro; apply repeat_length|discriminate]. Qed.
Lemma cdemo_prefixes off os : prefixes_ok (cdemo off [GuardSec 3]) os.
Proof.
  intros reps pat o i [E|[E|[]]] Hi _; [|discriminate]. injection E as <- <- <-.
  destruct Hi as [<-|[]]. unfold prefix_samples, slot. cbn [cdemo res_at w_res nth w_sub r_num r_den].
  rewrite Nat.mul_1_r. apply Nat.div_le_upper_bound; lia.
Qed.

(** *** C19 *)

(** For every OFDM waveform, oversampling factor and DC suppression setting: every grid
    of symbols can be modulated and is returned exactly by the demodulation, if no
    cyclic prefix is longer than a symbol and no sample offset is configured. *)
Theorem C19_ofdm_demodulation_inverts_modulation (junk : C) dc (w : wave) os grid :
  (0 < w_sub w)%nat -> (0 < os)%nat -> lead_ok w -> prefixes_ok w os ->
  Forall (fun s => sec_offset s = 0%nat) (w_struct w) ->
  shape (words_per_frame w) (w_sub w) grid ->
  exists samples, ofdm_modulate junk dc w os grid = Ok samples
    /\ length samples = samples_per_frame w os
    /\ ofdm_demodulate dc w os samples = Ok grid.
Proof.
  intros Hn Ho Hl Hp O S.
  pose proof (ofdm_shape dc (w_sub w) os grid _ Hn Ho S) as SF.
  destruct (frame_samples (RtoC 0) junk (ofdm_forward dc (w_sub w) os) w os grid SF) as (y & Ey & Ly & Dy).
  - apply lead_length; [exact Hl|]. intros x Hx. eexists. split; [reflexivity|].
    rewrite length_forward by assumption. lia.
  - apply sections_ok; assumption.
  - exists y. split; [exact Ey|]. split; [exact Ly|].
    unfold ofdm_demodulate. rewrite Dy, correct_none, rotated_none by (try exact O; apply SF).
    rewrite ofdm_roundtrip; [reflexivity|assumption|assumption|apply S].
Qed.
Print Assumptions C19_ofdm_demodulation_inverts_modulation.
Example C19_ofdm_met : (0 < w_sub (cdemo 0 [GuardSec 3]))%nat /\ lead_ok (cdemo 0 [GuardSec 3])
  /\ prefixes_ok (cdemo 0 [GuardSec 3]) 4 /\ Forall (fun s => sec_offset s = 0%nat) (w_struct (cdemo 0 [GuardSec 3]))
  /\ shape (words_per_frame (cdemo 0 [GuardSec 3])) (w_sub (cdemo 0 [GuardSec 3])) cgrid.
Proof.
  split; [cbn; lia|]. split; [apply cdemo_lead|]. split; [apply cdemo_prefixes|].
  split; [repeat constructor|]. split; [reflexivity|repeat constructor].
Qed.

(** A word that is received [off] samples early is received with a phase rotation per
    subcarrier that only depends on the subcarrier and the offset. *)
Theorem C19_offset_rotates_phases dc n os off x j :
  (0 < n)%nat -> (0 < os)%nat -> length x = n -> (off <= n * os)%nat -> (j < n)%nat ->
  nth j (ofdm_backward_word dc n os (rotate off (ofdm_forward_word dc n os x))) (RtoC 0)
  = nth j x (RtoC 0)
    * cis (- (2 * PI * ((INR (bin dc n os j) - INR ((n * os) / 2)) / INR (n * os)) * INR off)).
Proof.
  intros Hn Ho Hx Hoff Hj. rewrite (Nat.mul_comm n os) in *. apply received; assumption.
Qed.
Print Assumptions C19_offset_rotates_phases.
Example C19_offset_rotates_met : (0 < 2)%nat /\ (0 < 4)%nat /\ (3 <= 2 * 4)%nat /\ bin true 2 4 1 = 5%nat.
Proof. repeat split; try lia. Qed.

(** A sample offset of the first section with words is undone if all its prefixes are
    cyclic and at least as long as the offset: without DC suppression for every
    oversampling factor, with DC suppression without oversampling. *)
Lemma offset_general junk dc (w : wave) os grid pre reps pat off post :
  (0 < w_sub w)%nat -> (0 < os)%nat -> lead_ok w -> prefixes_ok w os ->
  w_struct w = pre ++ SymSec reps pat off :: post ->
  Forall (fun s => sec_words s = 0%nat /\ sec_offset s = 0%nat) pre ->
  Forall (fun s => sec_offset s = 0%nat) post ->
  (forall i, In i pat -> r_ptype (res_at w i) = CYCLIC /\ (off <= prefix_samples w os (res_at w i))%nat) ->
  shape (words_per_frame w) (w_sub w) grid ->
  exists samples, ofdm_modulate junk dc w os grid = Ok samples
    /\ ofdm_demodulate dc w os samples
       = Ok (map (fun x => tab (w_sub w) (fun j => nth j x (RtoC 0)
                    * if Nat.eqb off 0 then RtoC 1 else residual dc (w_sub w) os off j))
               (firstn (reps * length pat) grid) ++ skipn (reps * length pat) grid).
Proof.
  intros Hn Ho Hl Hp HS Hpre Hpost Hc S. set (n := w_sub w) in *.
  assert (R : Forall (sec_res_ok w os) (w_struct w)).
  { rewrite Forall_forall. intros s Hs. destruct s as [r p o|k|e]; cbn [sec_res_ok]; auto.
    intros i Hi. split; [intro; eapply Hp; eauto|].
    rewrite HS in Hs. apply in_app_or in Hs as [Hs|[Hs|Hs]].
    - rewrite Forall_forall in Hpre. left. apply (Hpre _ Hs).
    - injection Hs as <- <- <-. right. apply Hc, Hi.
    - rewrite Forall_forall in Hpost. left. apply (Hpost _ Hs). }
  pose proof (ofdm_shape dc n os grid _ Hn Ho S) as SF.
  destruct (frame_samples (RtoC 0) junk (ofdm_forward dc n os) w os grid SF) as (y & Ey & Ly & Dy).
  { apply lead_length; [exact Hl|]. intros x Hx. eexists. split; [reflexivity|].
    rewrite length_forward by assumption. fold n. lia. }
  { exact R. }
  exists y. split; [exact Ey|]. unfold ofdm_demodulate. fold n. rewrite Dy. f_equal.
  assert (HW : words_per_frame w = (reps * length pat + sum (map sec_words post))%nat).
  { unfold words_per_frame. rewrite HS. rewrite map_app, sum_app. cbn [map sum sec_words].
    enough (sum (map sec_words pre) = 0%nat) by lia. clear - Hpre.
    induction Hpre as [|s l [H _] Hl IH]; [reflexivity|]. cbn. lia. }
  set (k := (reps * length pat)%nat) in *.
  assert (HR : rotated (w_struct w) (ofdm_forward dc n os grid)
     = map (rotate off) (firstn k (ofdm_forward dc n os grid)) ++ skipn k (ofdm_forward dc n os grid)).
  { rewrite HS. destruct SF as [LF _]. revert LF. generalize (ofdm_forward dc n os grid) as rows. intros rows LF.
    rewrite HW in LF. clear - Hpre Hpost LF.
    assert (HRp : forall t, rotated (pre ++ t) rows = rotated t rows).
    { clear - Hpre. induction Hpre as [|s l [H H'] Hl IH]; intro t; [reflexivity|].
      cbn [app rotated]. rewrite H, H'. cbn [firstn skipn map app]. apply IH. }
    rewrite HRp. cbn [rotated sec_words sec_offset]. fold k. f_equal. apply rotated_none; [|exact Hpost].
    rewrite skipn_length. lia. }
  rewrite HR, HS.
  assert (HCp : forall t g, correct_offsets (ofdm_correct dc n os) (pre ++ t) g
                = correct_offsets (ofdm_correct dc n os) t g).
  { clear - Hpre. induction Hpre as [|s l [_ H] Hl IH]; intros t g; [reflexivity|].
    cbn [app correct_offsets]. rewrite H. cbn [Nat.eqb]. apply IH. }
  rewrite HCp. cbn [correct_offsets sec_words sec_offset]. rewrite correct_none by exact Hpost. fold k.
  unfold ofdm_backward, ofdm_forward. rewrite map_app, map_map, !firstn_map, !skipn_map, !map_map.
  destruct S as [LS FS].
  assert (FS' : Forall (fun r => length r = n) (firstn k grid) /\ Forall (fun r => length r = n) (skipn k grid))
    by (rewrite <- Forall_app, firstn_skipn; exact FS).
  destruct FS' as [F1 F2].
  assert (E2 : map (fun x => ofdm_backward_word dc n os (ofdm_forward_word dc n os x)) (skipn k grid) = skipn k grid).
  { rewrite <- (map_id (skipn k grid)) at 2. apply map_ext_in. intros x Hx.
    apply ofdm_word_roundtrip; [assumption..|]. rewrite Forall_forall in F2. apply F2, Hx. }
  rewrite E2.
  assert (Lk : length (firstn k grid) = k) by (rewrite firstn_length; lia).
  destruct (Nat.eqb_spec off 0) as [->|Hoff].
  - f_equal. apply map_ext_in. intros x Hx. rewrite Forall_forall in F1. specialize (F1 x Hx).
    rewrite rotate_0, ofdm_word_roundtrip by assumption.
    apply list_tab with (d := RtoC 0); [exact F1|]. intros i _. ring.
  - assert (SP : forall (a b : list (list C)), length a = k -> firstn k (a ++ b) = a /\ skipn k (a ++ b) = b).
    { clear. intros a b <-. rewrite firstn_app, skipn_app, Nat.sub_diag, firstn_all, skipn_all.
      cbn. rewrite app_nil_r. auto. }
    edestruct SP as [SP1 SP2]; [|rewrite SP1, SP2]; [rewrite map_length; exact Lk|].
    f_equal. unfold ofdm_correct. rewrite map_map.
    apply map_ext_in. intros x Hx. rewrite Forall_forall in F1. specialize (F1 x Hx).
    apply corrected; try assumption.
    assert (Hpat : exists i, In i pat).
    { destruct pat as [|i pat]; [|exists i; left; reflexivity]. unfold k in Hx. cbn in Hx.
      rewrite Nat.mul_0_r in Hx. destruct Hx. }
    destruct Hpat as (i & Hi). destruct (Hc i Hi) as [C1 C2].
    assert (prefix_samples w os (res_at w i) <= slot w os)%nat.
    { apply (Hp reps pat off); [rewrite HS; apply in_or_app; right; left; reflexivity|exact Hi|exact C1]. }
    unfold slot in H. fold n in H. lia.
Qed.

Theorem C19_sample_offset_inside_the_prefix (junk : C) dc (w : wave) os grid pre reps pat off post :
  (0 < w_sub w)%nat -> (0 < os)%nat -> lead_ok w -> prefixes_ok w os ->
  w_struct w = pre ++ SymSec reps pat off :: post ->
  Forall (fun s => sec_words s = 0%nat /\ sec_offset s = 0%nat) pre ->
  Forall (fun s => sec_offset s = 0%nat) post ->
  (forall i, In i pat -> r_ptype (res_at w i) = CYCLIC /\ (off <= prefix_samples w os (res_at w i))%nat) ->
  dc = false \/ os = 1%nat ->
  shape (words_per_frame w) (w_sub w) grid ->
  exists samples, ofdm_modulate junk dc w os grid = Ok samples
    /\ ofdm_demodulate dc w os samples = Ok grid.
Proof.
  intros Hn Ho Hl Hp HS Hpre Hpost Hc Hdc S.
  destruct (offset_general junk dc w os grid pre reps pat off post Hn Ho Hl Hp HS Hpre Hpost Hc S)
    as (y & Ey & Dy). exists y. split; [exact Ey|]. rewrite Dy. f_equal.
  rewrite <- (firstn_skipn (reps * length pat) grid) at 3. f_equal.
  destruct S as [LS FS].
  assert (F1 : Forall (fun r => length r = w_sub w) (firstn (reps * length pat) grid)).
  { rewrite Forall_forall in FS |- *. intros x Hx. apply FS. rewrite <- (firstn_skipn (reps * length pat)).
    apply in_or_app. left. exact Hx. }
  rewrite <- (map_id (firstn _ grid)) at 2. apply map_ext_in. intros x Hx.
  rewrite Forall_forall in F1. specialize (F1 x Hx). symmetry.
  apply list_tab with (d := RtoC 0); [exact F1|]. intros i Hi.
  destruct (Nat.eqb off 0); [ring|]. unfold residual.
  destruct Hdc as [->| ->]; [cbn [andb]; ring|].
  destruct (Nat.ltb_spec (pad_start (w_sub w) 1 + w_sub w) (1 * w_sub w)); [lia|].
  rewrite !andb_false_r. ring.
Qed.
Print Assumptions C19_sample_offset_inside_the_prefix.
Example C19_sample_offset_met :
  w_struct (cdemo 2 [GuardSec 3]) = [] ++ SymSec 2 [0%nat] 2 :: [GuardSec 3]
  /\ forall i, In i [0%nat] -> r_ptype (res_at (cdemo 2 [GuardSec 3]) i) = CYCLIC
       /\ (2 <= prefix_samples (cdemo 2 [GuardSec 3]) 4 (res_at (cdemo 2 [GuardSec 3]) i))%nat.
Proof. split; [reflexivity|]. intros i [<-|[]]. split; [reflexivity|vm_compute; lia]. Qed.

(** With DC suppression and oversampling the last subcarrier keeps a phase rotation: the
    correction uses the frequency of the DC bin for it. *)
Theorem C19_offset_with_dc_suppression (junk : C) (w : wave) os grid pre reps pat off post i :
  (0 < w_sub w)%nat -> (0 < os)%nat -> lead_ok w -> prefixes_ok w os ->
  w_struct w = pre ++ SymSec reps pat off :: post ->
  Forall (fun s => sec_words s = 0%nat /\ sec_offset s = 0%nat) pre ->
  Forall (fun s => sec_offset s = 0%nat) post ->
  (forall i, In i pat -> r_ptype (res_at w i) = CYCLIC /\ (off <= prefix_samples w os (res_at w i))%nat) ->
  (0 < off)%nat -> (2 <= os)%nat -> (2 <= w_sub w)%nat ->
  shape (words_per_frame w) (w_sub w) grid -> (i < reps * length pat)%nat ->
  exists samples received, ofdm_modulate junk true w os grid = Ok samples
    /\ ofdm_demodulate true w os samples = Ok received
    /\ forall j, (j < w_sub w)%nat ->
       at2 received i j = at2 grid i j
         * if Nat.eqb (S j) (w_sub w)
           then cis (- (2 * PI * (INR (w_sub w - w_sub w / 2) / INR (w_sub w * os)) * INR off))
           else RtoC 1.
Proof.
  intros Hn Ho Hl Hp HS Hpre Hpost Hc Hoff Hos Hw S Hi.
  destruct (offset_general junk true w os grid pre reps pat off post Hn Ho Hl Hp HS Hpre Hpost Hc S)
    as (y & Ey & Dy). eexists y, _. split; [exact Ey|]. split; [exact Dy|]. intros j Hj.
  assert (LG : (reps * length pat <= length grid)%nat).
  { destruct S as [LS _]. rewrite LS. unfold words_per_frame. rewrite HS, map_app, sum_app.
    cbn [map sum sec_words]. lia. }
  unfold at2 at 1. rewrite app_nth1 by (rewrite map_length, firstn_length; lia).
  rewrite (nth_map' _ _ []) by (rewrite firstn_length; lia).
  rewrite nth_firstn' by exact Hi. rewrite at0_tab by exact Hj. unfold at2, at0. f_equal.
  destruct (Nat.eqb_spec off 0) as [?|_]; [lia|]. unfold residual. cbn [andb].
  assert (HP : (pad_start (w_sub w) os + w_sub w < os * w_sub w)%nat).
  { unfold pad_start. set (n := w_sub w) in *.
    assert (2 * n <= os * n)%nat by nia. set (m := (os * n)%nat) in *.
    pose proof (Nat.div_mod n 2 ltac:(lia)). pose proof (Nat.mod_upper_bound n 2 ltac:(lia)).
    pose proof (Nat.div_mod m 2 ltac:(lia)). pose proof (Nat.mod_upper_bound m 2 ltac:(lia)). lia. }
  apply Nat.ltb_lt in HP. rewrite HP, andb_true_r, (Nat.mul_comm (w_sub w) os).
  destruct (Nat.eqb _ (w_sub w)); reflexivity.
Qed.
Print Assumptions C19_offset_with_dc_suppression.

Theorem C19_offset_with_dc_suppression_refuted :
  ~ (forall (w : @wave C) os grid samples reps pat off post,
       lead_ok w -> prefixes_ok w os ->
       w_struct w = SymSec reps pat off :: post ->
       Forall (fun s => sec_offset s = 0%nat) post ->
       (forall i, In i pat -> r_ptype (res_at w i) = CYCLIC /\ (off <= prefix_samples w os (res_at w i))%nat) ->
       shape (words_per_frame w) (w_sub w) grid ->
       ofdm_modulate (RtoC 0) true w os grid = Ok samples ->
       ofdm_demodulate true w os samples = Ok grid).
Proof.
  intro H. set (w := cdemo 1 [GuardSec 3]).
  assert (Hp : prefixes_ok w 2) by apply cdemo_prefixes.
  assert (Hc : forall i, In i [0%nat] -> r_ptype (res_at w i) = CYCLIC /\ (1 <= prefix_samples w 2 (res_at w i))%nat).
  { intros i [<-|[]]. split; [reflexivity|vm_compute; lia]. }
  assert (S : shape (words_per_frame w) (w_sub w) cgrid) by (split; [reflexivity|repeat constructor]).
  destruct (C19_offset_with_dc_suppression (RtoC 0) w 2 cgrid [] 2 [0%nat] 1 [GuardSec 3] 0)
    as (y & r & Ey & Er & Hr); try assumption; try (cbn; lia); try reflexivity; try (repeat constructor).
  - intro; apply repeat_length.
  - discriminate.
  - specialize (H w 2%nat cgrid y 2%nat [0%nat] 1%nat [GuardSec 3] (cdemo_lead _ _) Hp eq_refl
      ltac:(repeat constructor) Hc S Ey). rewrite Er in H. injection H as ->.
    specialize (Hr 1%nat ltac:(cbn; lia)). cbn [at2 at0 cgrid nth w_sub w cdemo] in Hr.
    unfold at2, at0 in Hr. cbn [cgrid nth w_sub w cdemo Nat.eqb] in Hr.
    change (2 - 2 / 2)%nat with 1%nat in Hr. change (2 * 2)%nat with 4%nat in Hr.
    replace (- (2 * PI * (INR 1 / INR 4) * INR 1))%R with (- (PI / 2))%R in Hr by (cbn; field).
    unfold cis in Hr. rewrite cos_neg, sin_neg, cos_PI2, sin_PI2 in Hr.
    apply (f_equal fst) in Hr. cbn in Hr. lra.
Qed.
Print Assumptions C19_offset_with_dc_suppression_refuted.

(** The sample offset of a later section is corrected on the words of the first section:
    neither arrives as it was sent. *)
Theorem C19_offset_of_a_later_section_refuted :
  ~ (forall (w : @wave C) grid samples reps reps' pat off,
       lead_ok w -> prefixes_ok w 1 ->
       w_struct w = [SymSec reps pat 0; SymSec reps' pat off] ->
       (forall i, In i pat -> r_ptype (res_at w i) = CYCLIC /\ (off <= prefix_samples w 1 (res_at w i))%nat) ->
       shape (words_per_frame w) (w_sub w) grid ->
       ofdm_modulate (RtoC 0) false w 1 grid = Ok samples ->
       ofdm_demodulate false w 1 samples = Ok grid).
Proof.
  intro H.
  set (w := mkWave 2 [mkResource 1 CYCLIC 1 2 [mkElement DATA 2]] [SymSec 1 [0%nat] 0; SymSec 1 [0%nat] 1]
    None [RtoC 1] true (fun n => repeat (RtoC 0) n)).
  assert (Hl : lead_ok w) by (split; [intro; apply repeat_length|discriminate]).
  assert (Hp : prefixes_ok w 1).
  { intros r p o i [E|[E|[]]] Hi _; injection E as <- <- <-; destruct Hi as [<-|[]]; vm_compute; lia. }
  assert (Hc : forall i, In i [0%nat] -> r_ptype (res_at w i) = CYCLIC /\ (1 <= prefix_samples w 1 (res_at w i))%nat).
  { intros i [<-|[]]. split; [reflexivity|vm_compute; lia]. }
  assert (S : shape (words_per_frame w) (w_sub w) cgrid) by (split; [reflexivity|repeat constructor]).
  assert (R : Forall (sec_res_ok w 1) (w_struct w)).
  { cbn [w w_struct]. apply Forall_cons; [|apply Forall_cons; [|apply Forall_nil]];
      cbn [sec_res_ok]; intros i Hi; destruct (Hc i Hi) as [C1 C2];
      (split; [intros _; destruct Hi as [<-|[]]; vm_compute; lia|]).
    - left. reflexivity.
    - right. split; assumption. }
  pose proof (ofdm_shape false 2 1 cgrid _ ltac:(lia) ltac:(lia) S) as SF.
  destruct (frame_samples (RtoC 0) (RtoC 0) (ofdm_forward false 2 1) w 1 cgrid SF) as (y & Ey & Ly & Dy).
  { intros e E. discriminate. } { exact R. }
  specialize (H w cgrid y 1%nat 1%nat [0%nat] 1%nat Hl Hp eq_refl Hc S Ey).
  unfold ofdm_demodulate in H. rewrite Dy in H.
  apply (f_equal (fun r => match r with Ok g => at2 g 0 0 | Raise _ => RtoC 0 end)) in H.
  cbv beta iota in H. cbn [w w_struct correct_offsets sec_offset Nat.eqb sec_words length Nat.mul Nat.add] in H.
  unfold ofdm_backward, ofdm_forward in H. cbn [cgrid map rotated sec_words sec_offset length Nat.mul Nat.add firstn skipn app] in H.
  rewrite rotate_0 in H. rewrite ofdm_word_roundtrip in H by (cbn; lia).
  unfold ofdm_correct in H. cbn [map app] in H. unfold at2 in H. cbn [nth] in H.
  cbn [w_sub w] in H. unfold ofdm_correct_word in H. cbn in H.
  apply (f_equal fst) in H.
  replace (2 * PI * ((0 - 1) / (1 + 1)) * 1)%R with (- PI)%R in H by field.
  unfold cis in H. cbn in H. rewrite cos_neg, sin_neg, cos_PI, sin_PI in H. lra.
Qed.
Print Assumptions C19_offset_of_a_later_section_refuted.

(** *** C20 *)

Theorem C20_otfs_backward_inverts_forward dc n os grid :
  (0 < n)%nat -> (0 < os)%nat -> Forall (fun r => length r = n) grid ->
  otfs_backward dc n os (otfs_forward dc n os grid) = grid.
Proof. apply otfs_roundtrip. Qed.
Print Assumptions C20_otfs_backward_inverts_forward.

Theorem C20_ocdm_backward_inverts_forward n os grid :
  (0 < n)%nat -> (0 < os)%nat -> Forall (fun r => length r = n) grid ->
  ocdm_backward n os (ocdm_forward n os grid) = grid.
Proof.
  intros Hn Ho H. apply map_map_id. intros x Hx. apply ocdm_word_roundtrip; [assumption..|].
  rewrite Forall_forall in H. apply H, Hx.
Qed.
Print Assumptions C20_ocdm_backward_inverts_forward.
Example C20_met : Forall (fun r => length r = 2%nat) cgrid.
Proof. repeat constructor. Qed.

(** Whole OTFS and OCDM frames, framed like OFDM frames. *)
Theorem C20_otfs_demodulation_inverts_modulation (junk : C) dc (w : wave) os grid correct :
  (0 < w_sub w)%nat -> (0 < os)%nat -> lead_ok w -> prefixes_ok w os ->
  Forall (fun s => sec_offset s = 0%nat) (w_struct w) ->
  shape (words_per_frame w) (w_sub w) grid ->
  exists samples, modulate (RtoC 0) junk (otfs_forward dc (w_sub w) os) w os grid = Ok samples
    /\ length samples = samples_per_frame w os
    /\ demodulate (otfs_backward dc (w_sub w) os) correct w os samples = Ok grid.
Proof.
  intros Hn Ho Hl Hp O S.
  assert (SF : forall g words, shape words (w_sub w) g -> shape words (w_sub w * os) (otfs_forward dc (w_sub w) os g)).
  { intros g words [L F]. apply ofdm_shape; [assumption..|]. split; [|apply widths_fft_cols].
    rewrite length_fft_cols, map_length. exact L. }
  destruct (frame_samples (RtoC 0) junk (otfs_forward dc (w_sub w) os) w os grid (SF _ _ S)) as (y & Ey & Ly & Dy).
  - apply lead_length; [exact Hl|]. intros x Hx.
    destruct (SF [x] 1%nat) as [L1 F1]; [split; [reflexivity|repeat constructor; exact Hx]|].
    destruct (otfs_forward dc (w_sub w) os [x]) as [|z [|]]; try discriminate. exists z.
    split; [reflexivity|]. inversion F1. assumption.
  - apply sections_ok; assumption.
  - exists y. split; [exact Ey|]. split; [exact Ly|].
    rewrite Dy, correct_none, rotated_none by (try exact O; apply SF, S).
    rewrite otfs_roundtrip; [reflexivity|assumption|assumption|apply S].
Qed.
Print Assumptions C20_otfs_demodulation_inverts_modulation.

Theorem C20_ocdm_demodulation_inverts_modulation (junk : C) (w : wave) os grid correct :
  (0 < w_sub w)%nat -> (0 < os)%nat -> lead_ok w -> prefixes_ok w os ->
  Forall (fun s => sec_offset s = 0%nat) (w_struct w) ->
  shape (words_per_frame w) (w_sub w) grid ->
  exists samples, modulate (RtoC 0) junk (ocdm_forward (w_sub w) os) w os grid = Ok samples
    /\ length samples = samples_per_frame w os
    /\ demodulate (ocdm_backward (w_sub w) os) correct w os samples = Ok grid.
Proof.
  intros Hn Ho Hl Hp O S.
  assert (SF : shape (words_per_frame w) (w_sub w * os) (ocdm_forward (w_sub w) os grid)).
  { destruct S as [L F]. split; [unfold ocdm_forward; rewrite map_length; exact L|].
    apply Forall_forall. intros r Hr. apply in_map_iff in Hr as (x & <- & _). apply length_tab. }
  destruct (frame_samples (RtoC 0) junk (ocdm_forward (w_sub w) os) w os grid SF) as (y & Ey & Ly & Dy).
  - apply lead_length; [exact Hl|]. intros x Hx. eexists. split; [reflexivity|]. apply length_tab.
  - apply sections_ok; assumption.
  - exists y. split; [exact Ey|]. split; [exact Ly|].
    rewrite Dy, correct_none, rotated_none by (try exact O; apply SF).
    rewrite C20_ocdm_backward_inverts_forward; [reflexivity|assumption|assumption|apply S].
Qed.
Print Assumptions C20_ocdm_demodulation_inverts_modulation.

(** DFT precoding, any normalisation, any number of streams and blocks, both ways. *)
Theorem C20_dft_precoding_is_invertible m width streams :
  Forall (Forall (fun block => length block = width)) streams ->
  dft_decode m width (dft_encode m width streams) = streams
  /\ dft_encode m width (dft_decode m width streams) = streams.
Proof.
  intro H. rewrite Forall_forall in H. split; apply map_map_id; intros g Hg.
  - apply ifft_fft_cols, H, Hg.
  - apply fft_ifft_cols, H, Hg.
Qed.
Print Assumptions C20_dft_precoding_is_invertible.
Example C20_dft_met : Forall (Forall (fun block : list C => length block = 2%nat)) [cgrid; cgrid].
Proof. repeat constructor. Qed.
