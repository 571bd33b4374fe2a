(** C113: OFDM frames over multipath channels and their ideal channel estimation. *)
From Coq Require Import List Reals ZArith Arith Bool Lia Lra.
From Coquelicot Require Import Complex.
From Verif Require Import Base BaseLemmas Cplx Cplx_Proofs Grid_Model Grid_Spec Grid_Proofs GridSamples_Proofs Ofdm_Model Ofdm_Proofs Ofdm_Props Chan_Model Oest_Model Oest_Spec Oest_Proofs.
Import ListNotations.
Open Scope R_scope.
Open Scope C_scope.

(** The waveform, the state of the channel and the grids fit together *)
Definition link_ok (w : wave) (os : nat) (c : csi) (grids : list (list (list C))) : Prop :=
  (0 < w_sub w)%nat /\ (0 < os)%nat /\ lead_ok w /\ prefixes_ok w os /\ Forall (fun s => sec_offset s = 0%nat) (w_struct w) /\
  format c = Impulse /\ (0 < ntaps c)%nat /\ time_invariant c /\ (samples_per_frame w os <= nsamples c)%nat /\
  length grids = ntx c /\ Forall (shape (words_per_frame w) (w_sub w)) grids.
(** What receiver antenna [r] gets of grids sent by all antennas if its frame starts at sample [f] *)
Definition transmitted (junk : C) (dc : bool) (w : wave) (os : nat) (c : csi) (grids : list (list (list C))) (f r : nat) : result (list (list C)) :=
  do frames <- mapM (ofdm_modulate junk dc w os) grids;
  do y <- csi_propagate c (signal_of (samples_per_frame w os) frames);
  ofdm_demodulate dc w os (frame_at f (samples_per_frame w os) y r).

Lemma frames_exist junk dc w os c grids : link_ok w os c grids -> exists frames, mapM (ofdm_modulate junk dc w os) grids = Ok frames /\
  Forall2 (fun g z => ofdm_modulate junk dc w os g = Ok z /\ length z = samples_per_frame w os) grids frames.
Proof.
  intros (Hn & Ho & Hl & Hp & O & _ & _ & _ & _ & _ & Sg). rewrite Forall_forall in Sg.
  destruct (mapM_exists (ofdm_modulate junk dc w os) (fun g z => ofdm_modulate junk dc w os g = Ok z /\ length z = samples_per_frame w os) grids) as (frames & E & F).
  - intros g Hg. destruct (C19_ofdm_demodulation_inverts_modulation junk dc w os g Hn Ho Hl Hp O (Sg g Hg)) as (z & Ez & Lz & _). exists z. auto.
  - exists frames. auto.
Qed.

(** Words whose cyclic prefix covers the echoes of a constant channel arrive without interference: each symbol is weighted with the frequency response of the channel
    at its subcarrier, and the contributions of the transmit antennas add up. [f] is the start of the frame at the receiver, before which no tap may be *)
Theorem C113_multipath : forall junk dc w os c grids f r, link_ok w os c grids -> (r < nrx c)%nat ->
  (forall t k, (t < ntx c)%nat -> (k < f)%nat -> h c r t 0%nat k = RtoC 0) ->
  exists rows, transmitted junk dc w os c grids f r = Ok rows /\ shape (words_per_frame w) (w_sub w) rows /\
  forall i j, (i < words_per_frame w)%nat -> (j < w_sub w)%nat -> (ntaps c <= 1 + f + nth i (cyclic_prefixes w os) 0)%nat ->
  at2 rows i j = csum (fun t => response dc (w_sub w) os (fun d => h c r t 0%nat (f + d)%nat) (ntaps c - f) j * at2 (nth t grids []) i j) (ntx c).
Proof.
  intros junk dc w os c grids f r L Hr H0. destruct (frames_exist junk dc w os c grids L) as (frames & Ef & Ff).
  destruct L as (Hn & Ho & Hl & Hp & O & Hf & Ht & Hi & HF & Hg & Sg). unfold transmitted. rewrite Ef. cbn [bind].
  assert (Hs : streams (signal_of (samples_per_frame w os) frames) = ntx c) by (cbn [signal_of streams]; rewrite <- (Forall2_len _ _ _ Ff); exact Hg).
  destruct (Chan_Proofs.csi_propagate_received c (signal_of (samples_per_frame w os) frames) Hf Ht Hs HF) as (y & Ey & _). rewrite Ey. cbn [bind].
  exact (multipath junk dc w os c grids frames f r y Hn Ho Hp O Hf Ht Hi HF Hg Sg Ff Hr H0 Ey).
Qed.
Print Assumptions C113_multipath.
(** two antennas sending two words each, with a cyclic prefix of one sample, over two taps *)
Definition two_taps (tx : nat) (a b : nat -> nat -> C) : csi := impulse_csi 2 tx 20 2 (fun r t _ k => if Nat.eqb k 0 then a r t else b r t).
Example C113_multipath_met : link_ok (cdemo 0 [GuardSec 3]) 1 (two_taps 2 (fun _ _ => RtoC 1) (fun r _ => RtoC (INR r))) [cgrid; cgrid] /\
  cyclic_prefixes (cdemo 0 [GuardSec 3]) 1 = [1; 1]%nat.
Proof.
  split; [|reflexivity]. split; [cbn; lia|]. split; [lia|]. split; [apply cdemo_lead|]. split; [apply cdemo_prefixes|]. split; [repeat constructor|]. split; [reflexivity|].
  split; [cbn; lia|]. split; [intros r t i k _; reflexivity|]. split; [cbn; lia|]. split; [reflexivity|]. repeat constructor.
Qed.

(** Estimates are the frequency response of the taps, averaged over the samples of the word and cut off after as many taps as a word has samples, whatever the delay of
    the frame *)
Theorem C113_averaged : forall dc w os state c streams delay, (0 < w_sub w)%nat -> (0 < os)%nat -> no_pilot_sections w -> Forall (fun s => sec_offset s = 0%nat) (w_struct w) ->
  state (samples_per_frame w os) (samples_per_frame w os) = Ok c -> (samples_per_frame w os <= nsamples c)%nat -> (streams <= nrx c)%nat ->
  exists est, estimate dc w os (Some state) streams delay = Ok est /\ length est = streams /\
  forall r, (r < streams)%nat -> length (nth r est []) = ntx c /\
  forall t, (t < ntx c)%nat -> shape (words_per_frame w) (w_sub w) (nth t (nth r est []) []) /\
  forall i j, (i < words_per_frame w)%nat -> (j < w_sub w)%nat -> at2 (nth t (nth r est []) []) i j
  = response dc (w_sub w) os (fun k => average (fun q => h c r t (nth i (word_starts w os) 0 + q)%nat k) (w_sub w * os)) (Nat.min (ntaps c) (w_sub w * os)) j.
Proof. exact all_averages. Qed.
Print Assumptions C113_averaged.
(** a leading pilot of two samples, then words of two samples behind prefixes of one *)
Example C113_averaged_met : word_starts (cdemo 0 [GuardSec 3]) 1 = [3; 6]%nat.
Proof. reflexivity. Qed.
(** Ideal estimates of a constant channel are its frequency response, cut off after as many taps as a word has samples, whatever the delay of the frame *)
Theorem C113_estimate : forall dc w os state c streams delay, (0 < w_sub w)%nat -> (0 < os)%nat -> no_pilot_sections w -> Forall (fun s => sec_offset s = 0%nat) (w_struct w) ->
  state (samples_per_frame w os) (samples_per_frame w os) = Ok c -> time_invariant c -> (samples_per_frame w os <= nsamples c)%nat -> (streams <= nrx c)%nat ->
  exists est, estimate dc w os (Some state) streams delay = Ok est /\ length est = streams /\
  forall r, (r < streams)%nat -> length (nth r est []) = ntx c /\
  forall t, (t < ntx c)%nat -> shape (words_per_frame w) (w_sub w) (nth t (nth r est []) []) /\
  forall i j, (i < words_per_frame w)%nat -> (j < w_sub w)%nat ->
  at2 (nth t (nth r est []) []) i j = response dc (w_sub w) os (fun k => h c r t 0%nat k) (Nat.min (ntaps c) (w_sub w * os)) j.
Proof. exact all_estimates. Qed.
Print Assumptions C113_estimate.
Example C113_estimate_met : no_pilot_sections (cdemo 0 [GuardSec 3]) /\ samples_per_frame (cdemo 0 [GuardSec 3]) 1 = 11%nat /\
  time_invariant (two_taps 2 (fun _ _ => RtoC 1) (fun r _ => RtoC (INR r))).
Proof. split; [repeat constructor|]. split; [reflexivity|]. intros r t i k _. reflexivity. Qed.

(** Received symbols are then explained by the estimates, for frames starting where the transmission does; a later start rotates the symbols by a phase growing with
    the frequency, which the estimates do not contain *)
Theorem C113_explained : forall junk dc w os state c grids streams delay f r, link_ok w os c grids -> no_pilot_sections w ->
  state (samples_per_frame w os) (samples_per_frame w os) = Ok c -> (streams <= nrx c)%nat -> (r < streams)%nat -> (ntaps c <= w_sub w * os)%nat ->
  (f <= ntaps c)%nat -> (forall t k, (t < ntx c)%nat -> (k < f)%nat -> h c r t 0%nat k = RtoC 0) ->
  exists rows est, transmitted junk dc w os c grids f r = Ok rows /\ estimate dc w os (Some state) streams delay = Ok est /\
  forall i j, (i < words_per_frame w)%nat -> (j < w_sub w)%nat -> (ntaps c <= 1 + f + nth i (cyclic_prefixes w os) 0)%nat ->
  cis (- (2 * PI * (IZR (frequency_index dc (w_sub w) os j) / INR (w_sub w * os)) * INR f)) * at2 rows i j
  = csum (fun t => at2 (nth t (nth r est []) []) i j * at2 (nth t grids []) i j) (ntx c).
Proof.
  intros junk dc w os state c grids streams delay f r L P Hst Hs Hr Hk Hf H0.
  destruct (C113_multipath junk dc w os c grids f r L ltac:(lia) H0) as (rows & Er & _ & Hrow).
  destruct L as (Hn & Ho & Hl & Hp & O & Hfm & Ht & Hi & HF & Hg & Sg).
  destruct (C113_estimate dc w os state c streams delay Hn Ho P O Hst Hi HF Hs) as (est & Ee & _ & He).
  exists rows, est. split; [exact Er|]. split; [exact Ee|]. intros i j Hiw Hj Hpre. rewrite (Hrow i j Hiw Hj Hpre), <- csum_scal. apply csum_ext. intros t Htt.
  destruct (He r Hr) as [_ He']. destruct (He' t Htt) as [_ He'']. rewrite (He'' i j Hiw Hj), Nat.min_l by exact Hk.
  rewrite (response_late dc (w_sub w) os (fun k => h c r t 0%nat k) (ntaps c) f j) by (try exact Hf; intros k Hkf; apply H0; assumption). ring.
Qed.
Print Assumptions C113_explained.
Lemma no_rotation a : cis (- (a * INR 0)) = RtoC 1.
Proof. cbn [INR]. rewrite Rmult_0_r, Ropp_0. apply cis_0. Qed.

(** Zero forcing with the estimates returns what was sent, wherever the channel passes the subcarrier *)
Theorem C113_equalized : forall junk dc w os state c grid delay, link_ok w os c [grid] -> no_pilot_sections w ->
  state (samples_per_frame w os) (samples_per_frame w os) = Ok c -> (0 < nrx c)%nat -> (ntaps c <= w_sub w * os)%nat ->
  exists rows est, transmitted junk dc w os c [grid] 0 0 = Ok rows /\ estimate dc w os (Some state) 1 delay = Ok est /\
  forall i j, (i < words_per_frame w)%nat -> (j < w_sub w)%nat -> (ntaps c <= 1 + nth i (cyclic_prefixes w os) 0)%nat ->
  response dc (w_sub w) os (fun k => h c 0 0 0%nat k) (ntaps c) j <> RtoC 0 -> at2 (zero_forcing rows (nth 0 est [])) i j = at2 grid i j.
Proof.
  intros junk dc w os state c grid delay L P Hst Hr Hk.
  destruct (C113_multipath junk dc w os c [grid] 0 0 L Hr ltac:(intros; lia)) as (rows & Er & Sr & Hrow).
  destruct L as (Hn & Ho & Hl & Hp & O & Hfm & Ht & Hi & HF & Hg & Sg). cbn [length] in Hg.
  destruct (C113_estimate dc w os state c 1 delay Hn Ho P O Hst Hi HF ltac:(lia)) as (est & Ee & _ & He).
  exists rows, est. split; [exact Er|]. split; [exact Ee|]. intros i j Hiw Hj Hpre Hne. destruct Sr as [Lr Fr].
  destruct (He 0%nat ltac:(lia)) as [L1 He']. destruct (He' 0%nat ltac:(lia)) as [_ He'']. specialize (He'' i j Hiw Hj). rewrite Nat.min_l in He'' by exact Hk.
  specialize (Hrow i j Hiw Hj Hpre). rewrite <- Hg in Hrow. cbn [csum nth] in Hrow. rewrite Nat.sub_0_r in Hrow.
  destruct (nth 0 est []) as [|g [|]]; cbn [length] in L1; try lia. cbn [nth] in He''.
  rewrite Forall_forall in Fr. assert (Li : length (nth i rows []) = w_sub w) by (apply Fr, nth_In; lia).
  unfold zero_forcing, at2 at 1, at0 at 1. cbn [map fold_right].
  rewrite (nth_map' (fun i => map (fun j => at0 (nth i rows []) j / (at2 g i j + 0)) (seq 0 (length (nth i rows [])))) _ 0%nat) by (rewrite seq_length; lia).
  rewrite seq_nth by lia. rewrite Nat.add_0_l.
  rewrite (nth_map' (fun j => at0 (nth i rows []) j / (at2 g i j + 0)) _ 0%nat) by (rewrite seq_length; lia). rewrite seq_nth by lia. rewrite Nat.add_0_l.
  change (at0 (nth i rows []) j) with (at2 rows i j). rewrite Hrow, He''.
  change (fun d : nat => h c 0 0 0 (0 + d)) with (fun k : nat => h c 0 0 0 k). field. exact Hne.
Qed.
Print Assumptions C113_equalized.
Example C113_equalized_met : link_ok (cdemo 0 [GuardSec 3]) 1 (two_taps 1 (fun _ _ => RtoC 1) (fun _ _ => RtoC (1 / 2))) [cgrid] /\
  response false 2 1 (fun k => if Nat.eqb k 0 then RtoC 1 else RtoC (1 / 2)) 2 0 <> RtoC 0.
Proof.
  split.
  - split; [cbn; lia|]. split; [lia|]. split; [apply cdemo_lead|]. split; [apply cdemo_prefixes|]. split; [repeat constructor|]. split; [reflexivity|].
    split; [cbn; lia|]. split; [intros r t i k _; reflexivity|]. split; [cbn; lia|]. split; [reflexivity|]. repeat constructor.
  - intro E. unfold response in E. cbn [csum Nat.eqb] in E. rewrite no_rotation in E.
    replace (cis _) with (RtoC (-1)) in E.
    + apply (f_equal fst) in E. cbn in E. lra.
    + unfold frequency_index. cbn [andb]. change (Z.of_nat 0 - Z.of_nat (2 / 2))%Z with (-1)%Z. cbn [INR Nat.mul Nat.add].
      replace (- (2 * PI * (-1 / (1 + 1)) * 1))%R with PI by lra. unfold cis. rewrite cos_PI, sin_PI. reflexivity.
Qed.

(** *** Refutations: frames of one word of two subcarriers *)
Definition pair_wave (res : resource) : @wave C := mkWave 2 [res] [SymSec 1 [0%nat] 0] None [RtoC 1] true (fun n => repeat (RtoC 0) n).
Definition no_prefix : resource := mkResource 1 NOPREFIX 0 1 [mkElement DATA 2].
Definition tap_line (n k : nat) (taps : nat -> nat -> C) : csi := impulse_csi 1 1 n k (fun _ _ i k => taps i k).
Lemma pair_link res k (taps : nat -> nat -> C) g : (0 < k)%nat -> (forall i k, taps i k = taps 0%nat k) -> (r_ptype res = CYCLIC -> prefix_samples (pair_wave res) 1 res <= 2)%nat ->
  (samples_per_frame (pair_wave res) 1 <= 6)%nat -> length g = 2%nat -> link_ok (pair_wave res) 1 (tap_line 6 k taps) [[g]].
Proof.
  intros Hk Hi Hp Hs Lg. split; [cbn; lia|]. split; [lia|]. split; [split; [intro; apply repeat_length|discriminate]|]. split.
  { intros reps pat off i [E|[]] Hin. injection E as <- <- <-. destruct Hin as [<-|[]]. cbn [res_at pair_wave w_res nth]. unfold slot. cbn [pair_wave w_sub Nat.mul Nat.add]. exact Hp. }
  split; [repeat constructor|]. split; [reflexivity|]. split; [exact Hk|]. split; [intros r t i q _; cbn; apply Hi|]. split; [exact Hs|]. split; [reflexivity|].
  constructor; [|constructor]. split; [reflexivity|]. constructor; [exact Lg|constructor].
Qed.
Lemma half_turn : cis PI = - RtoC 1.
Proof. unfold cis. rewrite cos_PI, sin_PI. apply injective_projections; cbn; lra. Qed.

(** Estimates of frames that start later than the transmission are wrong: without noise, the subcarrier below the carrier frequency is received with the opposite sign *)
Theorem C113_synchronised_refuted : forall junk g0 g1 delay, let c := tap_line 6 2 (fun _ k => if Nat.eqb k 1 then RtoC 1 else RtoC 0) in
  exists rows est, transmitted junk false (pair_wave no_prefix) 1 c [[[g0; g1]]] 1 0 = Ok rows /\
  estimate false (pair_wave no_prefix) 1 (Some (fun _ _ => Ok c)) 1 delay = Ok est /\
  at2 (nth 0 (nth 0 est []) []) 0 0 * g0 = - at2 rows 0 0 /\ at2 rows 0 0 = g0.
Proof.
  intros junk g0 g1 delay c.
  assert (L : link_ok (pair_wave no_prefix) 1 c [[[g0; g1]]]) by (apply pair_link; [lia|reflexivity|discriminate|cbn; lia|reflexivity]).
  assert (H0 : forall t k, (t < ntx c)%nat -> (k < 1)%nat -> h c 0 t 0%nat k = RtoC 0) by (intros t k _ Hk; replace k with 0%nat by lia; reflexivity).
  destruct (C113_explained junk false (pair_wave no_prefix) 1 (fun _ _ => Ok c) c [[[g0; g1]]] 1 delay 1 0 L ltac:(repeat constructor) eq_refl ltac:(cbn; lia) ltac:(lia) ltac:(cbn; lia) ltac:(cbn; lia) H0)
    as (rows & est & Er & Ee & H).
  destruct (C113_multipath junk false (pair_wave no_prefix) 1 c [[[g0; g1]]] 1 0 L ltac:(cbn; lia) H0) as (rows' & Er' & _ & H').
  rewrite Er in Er'. injection Er' as <-. exists rows, est. split; [exact Er|]. split; [exact Ee|].
  specialize (H 0%nat 0%nat ltac:(cbn; lia) ltac:(cbn; lia) ltac:(cbn; lia)). specialize (H' 0%nat 0%nat ltac:(cbn; lia) ltac:(cbn; lia) ltac:(cbn; lia)).
  split.
  - cbn [c tap_line impulse_csi ntx csum nth] in H. unfold at2 at 3 in H. cbn [nth at0] in H. rewrite Cplus_0_l in H. change (at0 [g0; g1] 0) with g0 in H. rewrite <- H.
    replace (cis _) with (- RtoC 1); [ring|]. rewrite <- half_turn. f_equal. unfold frequency_index. cbn [pair_wave w_sub andb Nat.mul Nat.add INR].
    change (Z.of_nat 0 - Z.of_nat (2 / 2))%Z with (-1)%Z. lra.
  - rewrite H'. cbn [c tap_line impulse_csi ntx ntaps csum nth Nat.sub]. unfold response. cbn [csum]. rewrite no_rotation. cbn [h tap_line impulse_csi Nat.add Nat.eqb]. unfold at2, at0. cbn [nth]. change (h c 0 0 0 1) with (RtoC 1). ring.
Qed.
Print Assumptions C113_synchronised_refuted.

(** Estimates drop the last tap that a cyclic prefix as long as the word allows for *)
Theorem C113_longest_prefix_refuted : forall junk g0 g1 delay, let res := mkResource 1 CYCLIC 1 1 [mkElement DATA 2] in
  let c := tap_line 6 3 (fun _ k => if Nat.eqb k 2 then RtoC 1 else RtoC 0) in
  exists rows est, transmitted junk false (pair_wave res) 1 c [[[g0; g1]]] 0 0 = Ok rows /\
  estimate false (pair_wave res) 1 (Some (fun _ _ => Ok c)) 1 delay = Ok est /\ at2 rows 0 1 = g1 /\ at2 (nth 0 (nth 0 est []) []) 0 1 = RtoC 0.
Proof.
  intros junk g0 g1 delay res c.
  assert (L : link_ok (pair_wave res) 1 c [[[g0; g1]]]) by (apply pair_link; [lia|reflexivity|cbn; lia|cbn; lia|reflexivity]).
  destruct (C113_multipath junk false (pair_wave res) 1 c [[[g0; g1]]] 0 0 L ltac:(cbn; lia) ltac:(intros; lia)) as (rows & Er & _ & H).
  pose proof L as (Hn & Ho & Hl & Hp & O & Hfm & Ht & Hi & HF & Hg & Sg).
  destruct (C113_estimate false (pair_wave res) 1 (fun _ _ => Ok c) c 1 delay Hn Ho ltac:(repeat constructor) O eq_refl Hi HF ltac:(cbn; lia)) as (est & Ee & _ & He).
  exists rows, est. split; [exact Er|]. split; [exact Ee|]. destruct (He 0%nat ltac:(lia)) as [_ He']. destruct (He' 0%nat ltac:(cbn; lia)) as [_ He''].
  specialize (H 0%nat 1%nat ltac:(cbn; lia) ltac:(cbn; lia) ltac:(cbn; lia)). specialize (He'' 0%nat 1%nat ltac:(cbn; lia) ltac:(cbn; lia)). rewrite H, He''. split.
  - unfold c, tap_line, impulse_csi. cbn [ntx ntaps csum nth Nat.sub]. unfold response. cbn [csum h Nat.add Nat.eqb pair_wave w_sub].
    replace (frequency_index false 2 1 1) with 0%Z by reflexivity. replace (cis (- (2 * PI * (0 / INR (2 * 1)) * INR 2))) with (RtoC 1); [unfold at2, at0; cbn [nth]; ring|].
    rewrite <- cis_0. f_equal. unfold Rdiv. ring.
  - unfold c, tap_line, impulse_csi. cbn [ntaps pair_wave w_sub Nat.mul Nat.add Nat.min]. unfold response. cbn [csum h Nat.eqb]. ring.
Qed.
Print Assumptions C113_longest_prefix_refuted.

(** The samples of a word of two subcarriers *)
Lemma pair_backward a b : nth 0 (ofdm_backward_word false 2 1 [a; b]) (RtoC 0) = (a - b) * RtoC (/ sqrt (INR 2) / INR 1) /\
  nth 1 (ofdm_backward_word false 2 1 [a; b]) (RtoC 0) = (a + b) * RtoC (/ sqrt (INR 2) / INR 1).
Proof.
  assert (P0 : phase 2 1 (bin false 2 1 0) 1 = - RtoC 1).
  { rewrite phase_frequency by lia. rewrite <- half_turn. f_equal. unfold frequency_index. cbn [andb]. change (Z.of_nat 0 - Z.of_nat (2 / 2))%Z with (-1)%Z. cbn [Nat.mul Nat.add INR]. lra. }
  assert (P1 : phase 2 1 (bin false 2 1 1) 1 = RtoC 1).
  { rewrite phase_frequency by lia. rewrite <- cis_0. f_equal. unfold frequency_index. cbn [andb]. change (Z.of_nat 1 - Z.of_nat (2 / 2))%Z with 0%Z. unfold Rdiv. ring. }
  assert (Z : forall k, phase 2 1 k 0 = RtoC 1) by (intro k; unfold phase; apply no_rotation).
  split; rewrite backward_at by (reflexivity || lia); change (1 * 2)%nat with 2%nat; cbn [csum]; rewrite ?P0, ?P1, ?Z; unfold at0; cbn [nth]; ring.
Qed.
Lemma pair_word g0 g1 : exists a b, ofdm_forward_word false 2 1 [g0; g1] = [a; b] /\ (a - b) * RtoC (/ sqrt (INR 2) / INR 1) = g0 /\ (a + b) * RtoC (/ sqrt (INR 2) / INR 1) = g1.
Proof.
  assert (L : length (ofdm_forward_word false 2 1 [g0; g1]) = 2%nat) by (apply length_forward; [lia..|reflexivity]).
  pose proof (ofdm_word_roundtrip false 2 1 ltac:(lia) ltac:(lia) [g0; g1] eq_refl) as R.
  destruct (ofdm_forward_word false 2 1 [g0; g1]) as [|a [|b [|]]]; try discriminate L. exists a, b. split; [reflexivity|].
  destruct (pair_backward a b) as [B0 B1]. rewrite R in B0, B1. split; symmetry; assumption.
Qed.
Lemma pair_frame junk res g0 g1 a b pre : ofdm_forward_word false 2 1 [g0; g1] = [a; b] ->
  place_word (RtoC 0) (pair_wave res) 1 res [a; b] = Ok (pre ++ [a; b]) -> sec_samples (pair_wave res) 1 (SymSec 1 [0%nat] 0) = (length pre + 2)%nat ->
  ofdm_modulate junk false (pair_wave res) 1 [[g0; g1]] = Ok (pre ++ [a; b]).
Proof.
  intros E P S. unfold ofdm_modulate, modulate. cbn [pair_wave w_pilot w_sub w_struct bind modulate_sections sec_words Nat.mul Nat.add firstn skipn length].
  unfold ofdm_forward. cbn [map firstn skipn]. rewrite E. cbn [place_samples place_words length Nat.modulo Nat.divmod fst snd Nat.sub nth res_at pair_wave w_res].
  fold (pair_wave res). rewrite P. cbn [bind]. rewrite app_nil_r. rewrite S, app_length. cbn [length]. rewrite Nat.leb_refl, Nat.sub_diag. cbn [bind repeat]. rewrite !app_nil_r. reflexivity.
Qed.

(** Without a prefix, or with one of zeros, echoes disturb other subcarriers of the same word: the estimate explains what is received only if both symbols are equal *)
Theorem C113_short_prefix_refuted : forall junk g0 g1 delay res, res = no_prefix \/ res = mkResource 1 ZEROPAD 1 2 [mkElement DATA 2] ->
  let c := tap_line 6 2 (fun _ k => if Nat.eqb k 1 then RtoC 1 else RtoC 0) in
  exists rows est, transmitted junk false (pair_wave res) 1 c [[[g0; g1]]] 0 0 = Ok rows /\
  estimate false (pair_wave res) 1 (Some (fun _ _ => Ok c)) 1 delay = Ok est /\ at2 (nth 0 (nth 0 est []) []) 0 0 * g0 = - g0 /\
  at2 rows 0 0 = - (g0 + g1) / RtoC 2.
Proof.
  intros junk g0 g1 delay res Hres c.
  assert (L : link_ok (pair_wave res) 1 c [[[g0; g1]]]) by (apply pair_link; [lia|reflexivity|destruct Hres as [-> | ->]; discriminate|destruct Hres as [-> | ->]; cbn; lia|reflexivity]).
  pose proof L as (Hn & Ho & Hl & Hp & O & Hfm & Ht & Hi & HF & Hg & Sg).
  destruct (C113_estimate false (pair_wave res) 1 (fun _ _ => Ok c) c 1 delay Hn Ho ltac:(repeat constructor) O eq_refl Hi HF ltac:(cbn; lia)) as (est & Ee & _ & He).
  destruct (pair_word g0 g1) as (a & b & Ew & Ea & Eb).
  set (pre := match r_ptype res with ZEROPAD => [RtoC 0] | _ => [] end).
  assert (EM : ofdm_modulate junk false (pair_wave res) 1 [[g0; g1]] = Ok (pre ++ [a; b])) by (apply pair_frame; [exact Ew|destruct Hres as [-> | ->]; reflexivity..]).
  unfold transmitted. cbn [mapM]. rewrite EM. cbn [bind].
  destruct (Chan_Proofs.csi_propagate_received c (signal_of (samples_per_frame (pair_wave res) 1) [pre ++ [a; b]]) Hfm Ht eq_refl HF) as (y & Ey & _). rewrite Ey. cbn [bind].
  set (F := samples_per_frame (pair_wave res) 1) in *.
  pose proof (received_frame c 0 F [pre ++ [a; b]] 0 y Hfm Ht Hi HF eq_refl ltac:(cbn; lia) ltac:(intros; lia) Ey) as R.
  assert (HFv : F = (length pre + 2)%nat) by (destruct Hres as [-> | ->]; reflexivity).
  unfold ofdm_demodulate. rewrite (demodulate_frame false (pair_wave res) 1 _ O (frame_at_length _ _ _ _)).
  eexists. exists est. split; [reflexivity|]. split; [exact Ee|].
  destruct (He 0%nat ltac:(lia)) as [_ He']. destruct (He' 0%nat ltac:(cbn; lia)) as [_ He'']. specialize (He'' 0%nat 0%nat ltac:(cbn; lia) ltac:(cbn; lia)). rewrite He''. split.
  - unfold c, tap_line, impulse_csi. cbn [ntaps pair_wave w_sub Nat.mul Nat.add Nat.min]. unfold response. cbn [csum h Nat.eqb].
    replace (cis (- (2 * PI * (IZR (frequency_index false 2 1 0) / INR (2 * 1)) * INR 1))) with (- RtoC 1); [ring|]. rewrite <- half_turn. f_equal.
    unfold frequency_index. cbn [andb]. change (Z.of_nat 0 - Z.of_nat (2 / 2))%Z with (-1)%Z. cbn [Nat.mul Nat.add INR]. lra.
  - assert (Est : starts (pair_wave res) 1 (w_struct (pair_wave res)) 0 = [length pre]) by (destruct Hres as [-> | ->]; reflexivity).
    rewrite Est. unfold at2, at0 at 1. cbn [map nth lead pair_wave w_pilot w_sub Nat.add]. fold (pair_wave res).
    assert (EW : window (RtoC 0) (pair_wave res) 1 (frame_at 0 F y 0) (length pre) = [RtoC 0; a]).
    { unfold window. change (slot (pair_wave res) 1) with 2%nat. cbn [seq map].
      change (nth ?k ?l (RtoC 0)) with (at0 l k). rewrite !R by lia. unfold c, tap_line, impulse_csi. cbn [ntx ntaps csum h Nat.add Nat.eqb Nat.sub nth].
      rewrite Nat.add_0_r. replace (1 <=? length pre + 1)%nat with true by (symmetry; apply Nat.leb_le; lia). replace (length pre + 1 - 1)%nat with (length pre) by lia.
      f_equal; [|f_equal].
      - destruct Hres as [-> | ->]; cbn [no_prefix r_ptype pre length app Nat.leb Nat.sub]; unfold at0; cbn [nth]; ring.
      - destruct Hres as [-> | ->]; cbn [no_prefix r_ptype pre length app Nat.leb Nat.sub Nat.add]; unfold at0; cbn [nth]; ring. }
    change (window (RtoC 0) (pair_wave res) 1 (frame_at 0 (samples_per_frame (pair_wave res) 1) y 0) (length pre)) with (window (RtoC 0) (pair_wave res) 1 (frame_at 0 F y 0) (length pre)).
    rewrite EW. destruct (pair_backward (RtoC 0) a) as [B _]. rewrite B, <- Ea, <- Eb. replace (RtoC 2) with (RtoC 1 + RtoC 1) by (rewrite <- RtoC_plus; f_equal; lra).
    field. intro E. apply (f_equal fst) in E. cbn in E. lra.
Qed.
Print Assumptions C113_short_prefix_refuted.

(** Estimates average a changing channel over the word: if it changes its sign half way through, both subcarriers are swapped although the estimate is zero *)
Theorem C113_time_varying_refuted : forall junk g0 g1 delay, let c := tap_line 2 1 (fun i _ => if Nat.eqb i 0 then RtoC 1 else - RtoC 1) in
  exists rows est, transmitted junk false (pair_wave no_prefix) 1 c [[[g0; g1]]] 0 0 = Ok rows /\
  estimate false (pair_wave no_prefix) 1 (Some (fun _ _ => Ok c)) 1 delay = Ok est /\
  at2 rows 0 0 = g1 /\ at2 rows 0 1 = g0 /\ forall j, (j < 2)%nat -> at2 (nth 0 (nth 0 est []) []) 0 j = RtoC 0.
Proof.
  intros junk g0 g1 delay c. destruct (pair_word g0 g1) as (a & b & Ew & Ea & Eb).
  assert (EM : ofdm_modulate junk false (pair_wave no_prefix) 1 [[g0; g1]] = Ok [a; b]) by (apply (pair_frame junk no_prefix g0 g1 a b []); [exact Ew|reflexivity..]).
  assert (O : Forall (fun s => sec_offset s = 0%nat) (w_struct (pair_wave no_prefix))) by (repeat constructor).
  unfold transmitted. cbn [mapM]. rewrite EM. cbn [bind]. change (samples_per_frame (pair_wave no_prefix) 1) with 2%nat.
  destruct (Chan_Proofs.csi_propagate_received c (signal_of 2 [[a; b]]) eq_refl ltac:(cbn; lia) eq_refl ltac:(cbn; lia)) as (y & Ey & _ & Sy & Hx). rewrite Ey. cbn [bind].
  unfold ofdm_demodulate. rewrite (demodulate_frame false (pair_wave no_prefix) 1 _ O (frame_at_length _ _ _ _)).
  assert (EW : window (RtoC 0) (pair_wave no_prefix) 1 (frame_at 0 2 y 0) 0 = [a; - b]).
  { unfold window. change (slot (pair_wave no_prefix) 1) with 2%nat. unfold frame_at. rewrite Sy. cbn [tab map seq nth signal_of samples Nat.add Nat.sub Nat.ltb Nat.leb c tap_line impulse_csi ntaps].
    rewrite !Hx by (cbn; lia). unfold c, tap_line, impulse_csi, Chan_Spec.received, Chan_Proofs.csi_taps.
    cbn [ntaps seq map Chan_Spec.total Chan_Spec.td Chan_Spec.weight signal_of samples streams x length csum Nat.leb Nat.ltb Nat.add andb Nat.sub h Nat.eqb nth]. unfold at0. cbn [nth].
    f_equal; [ring|]. f_equal. ring. }
  assert (EE : exists g, estimate false (pair_wave no_prefix) 1 (Some (fun _ _ => Ok c)) 1 delay = Ok [[g]] /\ forall j, (j < 2)%nat -> at2 g 0 j = RtoC 0).
  { unfold estimate. cbn [bind c tap_line impulse_csi nrx ntx Nat.min Nat.eqb orb seq mapM]. unfold estimate_pair. cbn [pair_wave w_pilot w_struct]. fold (pair_wave no_prefix). fold c.
    rewrite estimate_windows; [|repeat constructor|exact O|repeat constructor; cbn; lia]. cbn [bind]. eexists. split; [reflexivity|]. intros j Hj.
    unfold at2. change (starts (pair_wave no_prefix) 1 [SymSec 1 [0%nat] 0] 0) with [0%nat]. cbn [map nth]. unfold at0, word_estimate.
    change (w_sub (pair_wave no_prefix)) with 2%nat. rewrite spectrum_word_at by lia. unfold response. rewrite map_length, map_length, seq_length. cbn [ntaps c tap_line impulse_csi Nat.min Nat.mul Nat.add].
    cbn [csum]. replace (at0 _ 0) with (RtoC 0); [ring|]. unfold at0. cbn [seq map nth]. unfold window, mean. change (slot (pair_wave no_prefix) 1) with 2%nat.
    cbn [tab map seq nth length csum Nat.add c tap_line impulse_csi nsamples h Nat.eqb]. unfold at0. cbn [nth]. unfold Cdiv. ring. }
  destruct EE as (g & Eg & Hg).
  change (starts (pair_wave no_prefix) 1 (w_struct (pair_wave no_prefix)) 0) with [0%nat]. cbn [map]. change (lead (pair_wave no_prefix) 1 + 0)%nat with 0%nat.
  change (w_sub (pair_wave no_prefix)) with 2%nat. change (samples_per_frame (pair_wave no_prefix) 1) with 2%nat. rewrite EW. eexists. exists [[g]]. split; [reflexivity|]. split; [exact Eg|]. unfold at2 at 1 2, at0. cbn [nth]. destruct (pair_backward a (- b)) as [B0 B1]. rewrite B0, B1. split; [rewrite <- Eb; ring|]. split; [rewrite <- Ea; ring|]. exact Hg.
Qed.
Print Assumptions C113_time_varying_refuted.

(** Frames with pilot sections cannot be estimated *)
Theorem C113_pilot_sections_refuted : forall dc w os state c streams delay, (exists e, In (PilotSec e) (w_struct w)) -> Forall (fun s => sec_offset s = 0%nat) (w_struct w) ->
  state (samples_per_frame w os) (samples_per_frame w os) = Ok c -> (samples_per_frame w os <= nsamples c)%nat -> (0 < streams)%nat -> (0 < ntx c)%nat ->
  estimate dc w os (Some state) streams delay = Raise ValueError.
Proof.
  intros dc w os state c streams delay Hp O Hst HF Hs Ht. unfold estimate. rewrite Hst. cbn [bind]. destruct (_ || _)%bool; [|reflexivity].
  assert (E : forall r t, estimate_pair dc w os c r t = Raise ValueError).
  { intros r t. unfold estimate_pair. unfold samples_per_frame in HF.
    assert (L : Forall (fun z => length z = nsamples c) (map (fun k => tab (nsamples c) (fun i => h c r t i k)) (seq 0 (ntaps c)))).
    { rewrite Forall_map. apply Forall_forall. intros k _. unfold tab. rewrite map_length, seq_length. reflexivity. }
    destruct (w_pilot w); (apply estimate_pilot; [exact Hp|exact O|]).
    - rewrite Forall_map. revert L. apply Forall_impl. intros z Hz. rewrite skipn_length. lia.
    - revert L. apply Forall_impl. intros z Hz. lia. }
  destruct streams as [|s]; [lia|]. destruct (ntx c) as [|t]; [lia|]. cbn [seq mapM]. rewrite E. reflexivity.
Qed.
Print Assumptions C113_pilot_sections_refuted.
Example C113_pilot_sections_met : exists e, In (PilotSec e) (w_struct (mkWave 2 [no_prefix] [PilotSec None; SymSec 1 [0%nat] 0] None [RtoC 1] true (fun n => repeat (RtoC 0) n))).
Proof. exists None. left. reflexivity. Qed.

Lemma mapM_const {X} (f : result X) v : f = Ok v -> forall s m, mapM (fun _ : nat => f) (seq m s) = Ok (repeat v s).
Proof. intros -> . induction s as [|s IH]; intro m; [reflexivity|]. cbn [seq mapM bind]. rewrite IH. reflexivity. Qed.
(** Nothing is estimated before a channel was seen; a receiver of more streams than antennas gets the state of its only antenna for all of them, or none *)
Theorem C113_antennas : forall dc w os state c streams delay, estimate dc w os None streams delay = Raise RuntimeError /\
  (state (samples_per_frame w os) (samples_per_frame w os) = Ok c -> (nrx c < streams)%nat ->
   (nrx c <> 1%nat -> estimate dc w os (Some state) streams delay = Raise ValueError) /\
   (nrx c = 1%nat -> estimate dc w os (Some state) streams delay = do l <- estimate dc w os (Some state) 1 delay; Ok (repeat (nth 0 l []) streams))).
Proof.
  intros dc w os state c streams delay. split; [reflexivity|]. intros Hst Hs. unfold estimate. rewrite Hst. cbn [bind]. rewrite Nat.min_l by lia. split; intro H1.
  - destruct (Nat.eqb_spec (nrx c) streams), (Nat.eqb_spec (nrx c) 1); try lia. reflexivity.
  - rewrite H1. cbn [Nat.eqb Nat.min orb]. rewrite orb_true_r. cbn [seq mapM]. destruct (mapM (fun t => estimate_pair dc w os c 0 t) (seq 0 (ntx c))) as [v|x] eqn:E; cbn [bind nth].
    + apply mapM_const. reflexivity.
    + destruct streams as [|s]; [lia|]. cbn [seq mapM]. reflexivity.
Qed.
Print Assumptions C113_antennas.
