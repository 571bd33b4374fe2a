(** Properties of audio devices *)
From Coq Require Import List Reals Bool Arith ZArith Lia Lra.
From Coquelicot Require Import Complex.
From Verif Require Import Base BaseLemmas Cplx Cplx_Proofs Ofdm_Proofs Aud_Model Aud_Spec Aud_Proofs.
Import ListNotations.
Local Open Scope nat_scope.

(** Streams recorded as they are played come back unchanged exactly if they have no frequency that is moved to zero or beyond the lower half of the spectrum *)
Theorem C126_loopback : forall streams, List.Forall (fun s => length s <> 0) streams -> (looped streams = Ok streams <-> List.Forall fits streams).
Proof. intros streams H. unfold looped. rewrite loop_all by exact H. cbn [bind]. apply loop_streams. exact H. Qed.
Print Assumptions C126_loopback.
Example C126_loopback_met : looped [tone; tone] = Ok [tone; tone] /\ tone <> repeat (RtoC 0) 4 /\ length tone = 4.
Proof.
  split; [|split].
  - apply C126_loopback.
    + repeat constructor; unfold tone; rewrite length_ifft; discriminate.
    + repeat constructor; apply tone_fits.
  - intro H. assert (Q := tone_third). rewrite H in Q. cbn in Q. apply (f_equal fst) in Q. cbn in Q. lra.
  - unfold tone. rewrite length_ifft. reflexivity.
Qed.
(** Each frequency of a stream that is played and recorded: kept if audible, doubled and stripped of its imaginary part if moved to zero, lost otherwise *)
Theorem C126_spectrum : forall s y j, looped [s] = Ok [y] -> j < length s -> length y = length s /\
  (audible (length s) j -> at0 (fft Backward y) j = at0 (fft Backward s) j) /\
  (on_air (length s) j = 0 -> 2 <= length s -> at0 (fft Backward y) j = RtoC (2 * fst (at0 (fft Backward s) j))) /\
  (length s / 2 <= on_air (length s) j -> at0 (fft Backward y) j = RtoC 0).
Proof.
  intros s y j L J. unfold looped in L. rewrite loop_all in L by (repeat constructor; lia). cbn [bind map download] in L. unfold download in L. cbn [mapM] in L. destruct (received (pressure s)) as [z|e] eqn:E; cbn [bind] in L; [|discriminate]. injection L as ->.
  destruct (loop_spectrum s y j E J) as [Ly H]. split; [exact Ly|]. rewrite H. unfold audible. repeat split.
  - intro A. destruct (Nat.ltb_spec (on_air (length s) j) (length s / 2)); [|lia]. destruct (Nat.eqb_spec (on_air (length s) j) 0); [lia|reflexivity].
  - intros A B. rewrite A. assert (1 <= length s / 2) by (apply Nat.div_le_lower_bound; lia). destruct (Nat.ltb_spec 0 (length s / 2)); [|lia]. reflexivity.
  - intro A. destruct (Nat.ltb_spec (on_air (length s) j) (length s / 2)); [lia|reflexivity].
Qed.
Print Assumptions C126_spectrum.
Example C126_spectrum_met : exists y, looped [[RtoC 1; RtoC 0; RtoC 0; RtoC 0]] = Ok [y] /\ audible 4 3 /\ on_air 4 2 = 0 /\ 4 / 2 <= on_air 4 0.
Proof.
  destruct (received_pressure [RtoC 1; RtoC 0; RtoC 0; RtoC 0]) as (y & E & _); [discriminate|]. exists y. split.
  - unfold looped. rewrite loop_all by (repeat constructor; discriminate). cbn [bind map]. unfold download. cbn [mapM]. rewrite E. reflexivity.
  - unfold audible. vm_compute. lia.
Qed.
(** A signal can only be audible in less than half of its frequencies *)
Theorem C126_half_the_band : forall n, 2 <= n -> length (filter (fun j => (1 <=? on_air n j) && (on_air n j <? n / 2)) (seq 0 n)) = n / 2 - 1.
Proof.
  intros n H. assert (L : 1 <= lift n <= n) by (apply lift_le; lia). assert (D : n / 2 <= n) by (apply Nat.div_le_upper_bound; lia).
  set (g := fun k => (1 <=? k) && (k <? n / 2)). assert (Q : forall a b, length (filter g (seq a b)) = Nat.min (a + b) (n / 2) - Nat.min (Nat.max 1 a) (n / 2) - (if b =? 0 then Nat.min a (n / 2) - Nat.min (Nat.max 1 a) (n / 2) else 0)).
  { intros a b. revert a. induction b as [|b IH]; intro a; [cbn [seq filter length]; cbn [Nat.eqb]; lia|]. cbn [seq filter]. assert (I := IH (S a)). destruct (Nat.eqb_spec (S b) 0); [lia|]. unfold g at 1. destruct (Nat.leb_spec 1 a) as [X|X]; destruct (Nat.ltb_spec a (n / 2)) as [Y|Y]; cbn [andb length]; rewrite I; destruct (Nat.eqb_spec b 0); lia. }
  assert (S1 : forall m a c, a + m <= n -> c + m <= n -> (forall j, a <= j < a + m -> on_air n j = c + (j - a)) -> length (filter (fun j => g (on_air n j)) (seq a m)) = length (filter g (seq c m))).
  { induction m as [|m IH]; intros a c A B E; [reflexivity|]. cbn [seq filter]. rewrite (E a) by lia. rewrite Nat.sub_diag, Nat.add_0_r. assert (I := IH (S a) (S c)). destruct (g c); cbn [length]; rewrite I; try lia; intros j J; rewrite E by lia; lia. }
  change (length (filter (fun j => g (on_air n j)) (seq 0 n)) = n / 2 - 1). replace (seq 0 n) with (seq 0 (n - lift n) ++ seq (0 + (n - lift n)) (lift n)) by (rewrite <- seq_app; f_equal; lia).
  rewrite filter_app, app_length, (S1 (n - lift n) 0 (lift n)), (S1 (lift n) (0 + (n - lift n)) 0); try lia.
  - rewrite Nat.add_comm, <- app_length, <- filter_app. change (lift n) with (0 + lift n) at 2. rewrite <- seq_app, Q. destruct (Nat.eqb_spec (lift n + (n - lift n)) 0); lia.
  - intros j J. rewrite on_air_lift. replace (j + lift n) with ((j - (n - lift n)) + 1 * n) by lia. rewrite Nat.mod_add by lia. rewrite Nat.mod_small by lia. lia.
  - intros j J. rewrite on_air_lift, Nat.mod_small by lia. lia.
Qed.
Print Assumptions C126_half_the_band.
Example C126_half_the_band_met : filter (fun j => (1 <=? on_air 10 j) && (on_air 10 j <? 10 / 2)) (seq 0 10) = [0; 1; 8; 9].
Proof. reflexivity. Qed.
(** Playing back and recording raises an error exactly if a stream has no samples *)
Theorem C126_errors : forall d streams, (exists t, transmission d streams = Ok t) <-> List.Forall (fun s => length s <> 0) streams.
Proof.
  intros d streams. split.
  - intros [t T]. rewrite List.Forall_forall. intros s I Z. apply In_nth_error in I as [i I]. destruct (mapM_nth _ _ _ T i s I) as (y & Y & _). unfold played in Y. rewrite Z in Y. discriminate.
  - intro H. eexists. apply (mapM_ok_map _ (fun s => pressure s ++ repeat 0%R d)). intros s I. rewrite List.Forall_forall in H. specialize (H s I). unfold played. destruct (Nat.eqb_spec (length s) 0); [contradiction|reflexivity].
Qed.
Print Assumptions C126_errors.
Example C126_errors_met : (exists t, transmission 3 [tone] = Ok t) /\ transmission 3 [tone; []] = Raise ValueError.
Proof. split; [apply C126_errors; repeat constructor; unfold tone; rewrite length_ifft; discriminate|]. unfold transmission. cbn [mapM]. unfold played. replace (length tone =? 0) with false by (unfold tone; rewrite length_ifft; reflexivity). reflexivity. Qed.
(** Silence is appended for the receive delay, short of it by less than a sample *)
Theorem C126_silence : forall d streams t i s, transmission d streams = Ok t -> nth_error streams i = Some s -> exists p, nth_error t i = Some p /\ length p = length s + d /\ firstn (length s) p = pressure s /\ forall k, length s <= k < length s + d -> nth k p 1%R = 0%R.
Proof.
  intros d streams t i s T I. destruct (mapM_nth _ _ _ T i s I) as (p & Y & N). exists p. split; [exact N|]. unfold played in Y. destruct (length s =? 0); [discriminate|]. assert (E : p = pressure s ++ repeat 0%R d) by congruence. subst p. split; [rewrite app_length, length_pressure, repeat_length; reflexivity|]. split.
  - rewrite <- (length_pressure s) at 1. rewrite firstn_app, Nat.sub_diag, firstn_O, app_nil_r. apply firstn_all.
  - intros k K. rewrite app_nth2 by (rewrite length_pressure; lia). rewrite length_pressure. apply nth_repeat'. lia.
Qed.
Print Assumptions C126_silence.
Example C126_silence_met : transmission 2 [tone] = Ok [[1; 0; -1; 0; 0; 0]%R].
Proof. unfold transmission. cbn [mapM]. unfold played. rewrite tone_pressure. replace (length tone =? 0) with false by (unfold tone; rewrite length_ifft; reflexivity). reflexivity. Qed.
Theorem C126_delay : forall delay rate, (0 <= delay * rate)%R -> (INR (delay_samples delay rate) <= delay * rate < INR (delay_samples delay rate) + 1)%R.
Proof.
  intros delay rate H. unfold delay_samples. destruct (base_Int_part (delay * rate)) as [A B]. assert (Z0 : (0 <= Int_part (delay * rate))%Z). { assert (Q : (-1 < Int_part (delay * rate))%Z) by (apply lt_IZR; lra). lia. }
  rewrite INR_IZR_INZ, Z2Nat.id by exact Z0. lra.
Qed.
Print Assumptions C126_delay.
Example C126_delay_met : (0 <= 1 / 2 * 5)%R /\ delay_samples (1 / 2) 5 = 2.
Proof.
  split; [lra|]. unfold delay_samples. assert (E : Int_part (1 / 2 * 5) = 2%Z); [|rewrite E; reflexivity]. unfold Int_part. assert (U : 3%Z = up (1 / 2 * 5)) by (apply tech_up; lra). rewrite <- U. reflexivity.
Qed.
(** Refuted: with a receive delay a signal of audible frequencies does not come back, even if it is recorded as it is played *)
Theorem C126_delayed_loopback_refuted : exists s t y, length s = 4 /\ fits s /\ transmission 4 [s] = Ok [t] /\ received t = Ok y /\ length y = 8 /\ at0 s 2 = RtoC (-1) /\ at0 y 2 = (- Ci)%C /\ firstn 4 y <> s.
Proof.
  destruct tone_delayed as (y & R & L & V). exists tone, ([1; 0; -1; 0]%R ++ repeat 0%R 4), y. split; [unfold tone; rewrite length_ifft; reflexivity|]. split; [apply tone_fits|]. split.
  - unfold transmission. cbn [mapM]. unfold played. rewrite tone_pressure. replace (length tone =? 0) with false by (unfold tone; rewrite length_ifft; reflexivity). reflexivity.
  - split; [exact R|]. split; [exact L|]. split; [apply tone_third|]. split; [exact V|]. intro E. assert (Q := tone_third). rewrite <- E in Q. unfold at0 in Q, V. rewrite nth_firstn' in Q by lia. rewrite V in Q. apply (f_equal fst) in Q. cbn in Q. lra.
Qed.
Print Assumptions C126_delayed_loopback_refuted.
(** The signal reported as uploaded has the samples played, in as many streams as there are receiving ports: it is the signal played exactly if there are as many receiving as transmitting ports *)
Theorem C126_uploaded : forall d r n streams t u, List.Forall (fun s => length s = n) streams -> upload d r streams = Ok (t, u) ->
  transmission d streams = Ok t /\ length u = r /\ concat u = concat t /\ (u = t <-> r = length streams).
Proof.
  intros d r n streams t u F U. unfold upload in U. destruct (transmission d streams) as [t'|e] eqn:T; cbn [bind] in U; [|discriminate]. destruct (reshape r t') as [u'|e] eqn:R; cbn [bind] in U; [|discriminate]. assert (E : t' = t /\ u' = u) by (split; congruence). destruct E as [-> ->]. clear U.
  destruct (length_transmission d streams t T) as [Lt Li]. unfold reshape in R. cbv zeta in R. destruct (Nat.eqb_spec r 0) as [Z|Z]; [discriminate|]. destruct (Nat.eqb_spec (length (concat t) mod r) 0) as [M|M]; [|discriminate]. assert (E : u = blocks_of r (length (concat t) / r) (concat t)) by congruence. clear R.
  assert (LL : length (concat t) = r * (length (concat t) / r)) by (rewrite (Nat.div_mod (length (concat t)) r Z) at 1; lia).
  assert (Lu : length u = r) by (rewrite E; apply length_blocks_of). split; [reflexivity|]. split; [exact Lu|]. split; [rewrite E, concat_blocks_of, <- LL; apply firstn_all|]. split.
  - intro Q. rewrite Q in Lu. lia.
  - intro Q. assert (W : List.Forall (fun p => length p = n + d) t).
    { rewrite List.Forall_forall. intros p I. apply In_nth_error in I as [i I]. assert (K : i < length streams) by (rewrite <- Lt; apply nth_error_Some; congruence). destruct (nth_error streams i) as [s|] eqn:S; [|apply nth_error_None in S; lia]. destruct (Li i s S) as (p' & P & Lp). rewrite List.Forall_forall in F. rewrite (F s) in Lp by (eapply nth_error_In; exact S). congruence. }
    assert (C0 : length (concat t) = r * (n + d)). { rewrite Q, <- Lt. clear - W. induction W as [|p l P W IH]; [reflexivity|]. cbn [concat length]. rewrite app_length, IH, P. lia. }
    rewrite E, C0. rewrite Nat.mul_comm, Nat.div_mul by exact Z. rewrite Q, <- Lt. apply blocks_of_concat. exact W.
Qed.
Print Assumptions C126_uploaded.
Example C126_uploaded_met : upload 0 1 [tone] = Ok ([[1; 0; -1; 0]%R], [[1; 0; -1; 0]%R]).
Proof. unfold upload, transmission. cbn [mapM]. unfold played. rewrite tone_pressure. replace (length tone =? 0) with false by (unfold tone; rewrite length_ifft; reflexivity). reflexivity. Qed.
(** Refuted: the signal reported as uploaded is the signal played *)
Theorem C126_uploaded_streams_refuted : upload 0 1 [tone; tone] = Ok ([[1; 0; -1; 0]%R; [1; 0; -1; 0]%R], [[1; 0; -1; 0; 1; 0; -1; 0]%R]) /\ upload 0 3 [tone; tone] = Raise ValueError.
Proof. unfold upload, transmission. cbn [mapM]. unfold played. rewrite tone_pressure. replace (length tone =? 0) with false by (unfold tone; rewrite length_ifft; reflexivity). split; reflexivity. Qed.
Print Assumptions C126_uploaded_streams_refuted.
(** Downloads succeed unless a channel recorded nothing, which is a ValueError *)
Theorem C126_empty_recordings : forall recorded, (exists y, download recorded = Ok y) <-> ~ In [] recorded.
Proof.
  intro l. split.
  - intros (y & E) H. revert y E. induction l as [|r l IH]; intros y E; [destruct H|]. unfold download in *. cbn [mapM] in E. destruct H as [->|H]; [cbn in E; discriminate|]. destruct (received r); cbn [bind] in E; [|discriminate]. destruct (mapM received l) as [z|e]; cbn [bind] in E; [|discriminate]. exact (IH H z eq_refl).
  - induction l as [|r l IH]; intro H; [exists []; reflexivity|]. destruct IH as [y E]; [intro Q; apply H; right; exact Q|]. unfold download in *. cbn [mapM]. destruct r as [|v r]; [exfalso; apply H; left; reflexivity|]. unfold received at 1. cbn [length Nat.eqb bind]. rewrite E. cbn [bind]. eexists. reflexivity.
Qed.
Print Assumptions C126_empty_recordings.
Example C126_empty_recordings_met : ~ In [] [[1%R]; [2%R; 3%R]].
Proof. intros [Q|[Q|[]]]; discriminate. Qed.
