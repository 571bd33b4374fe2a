(** Properties of correlation synchronization (C90). *)
From Coq Require Import List Reals Bool Arith ZArith Lia Lra Sorting.Sorted FunctionalExtensionality.
From Coquelicot Require Import Complex.
From Verif Require Import Base BaseLemmas Cplx Cplx_Proofs Sc_Proofs Sync_Model Sync_Spec Sync_Proofs.
Import ListNotations.
Local Open Scope nat_scope.

(** Every frame found in a signal at least one frame long lies within the signal. *)
Theorem C90_frames_within_the_signal : forall s streams n pilot frame l, synchronize s streams n pilot frame = Ok l -> frame <= n ->
  forall i, In i l -> (0 <= i <= Z.of_nat n - Z.of_nat frame)%Z.
Proof.
  intros s streams n pilot frame l H L i I. destruct (synchronize_inv _ _ _ _ _ _ H) as [->|[peaks [-> _]]]; [destruct I|].
  apply in_map_iff in I. destruct I as [k [<- _]]. apply correct_range. exact L.
Qed.
Print Assumptions C90_frames_within_the_signal.

(** In a shorter signal, any frame found is reported at the number of missing samples. *)
Theorem C90_short_signal : forall s streams n pilot frame l, synchronize s streams n pilot frame = Ok l -> n < frame ->
  forall i, In i l -> i = (Z.of_nat frame - Z.of_nat n)%Z.
Proof.
  intros s streams n pilot frame l H L i I. destruct (synchronize_inv _ _ _ _ _ _ H) as [->|[peaks [-> _]]]; [destruct I|].
  apply in_map_iff in I. destruct I as [k [<- _]]. apply correct_short. exact L.
Qed.
Print Assumptions C90_short_signal.

(** Frames which were not moved to the edges of the signal are reported in order, at least eight tenths of a frame apart. *)
Theorem C90_frames_do_not_overlap : forall s streams n pilot frame l, synchronize s streams n pilot frame = Ok l -> frame <= n ->
  forall i j a b, i < j -> nth_error l i = Some a -> nth_error l j = Some b -> (0 < a)%Z -> (b < Z.of_nat n - Z.of_nat frame)%Z ->
  (Z.of_nat (8 * frame / 10) <= b - a)%Z.
Proof.
  intros s streams n pilot frame l H L i j a b IJ A B Ha Hb. destruct (synchronize_inv _ _ _ _ _ _ H) as [->|[peaks [-> [P [_ F]]]]]; [destruct i; discriminate|].
  apply find_peaks_ok in F. destruct F as [So [Ap _]]. rewrite nth_error_map' in A, B.
  destruct (nth_error peaks i) as [p|] eqn:Ep; [|discriminate]. destruct (nth_error peaks j) as [q|] eqn:Eq; [|discriminate]. cbn in A, B. injection A as <-. injection B as <-.
  assert (O := sorted_nth _ _ _ _ _ So IJ Ep Eq). assert (D := Ap p q (nth_error_In _ _ Ep) (nth_error_In _ _ Eq) ltac:(lia)).
  assert (X := correct_positive _ _ _ _ L Ha). assert (Y := correct_inside _ _ _ _ L Hb). lia.
Qed.
Print Assumptions C90_frames_do_not_overlap.

(** If the correlation with the pilot reaches nine tenths of its maximum exactly at the offsets [starts], and these are interior, increasing and at least eight tenths of a frame apart,
    then exactly these frames are found. *)
Theorem C90_exactly_the_correlated_frames : forall s streams n pilot frame starts, streams <> [] -> 2 <= length pilot -> 3 <= frame -> (0 < best streams n pilot)%R ->
  (forall k, k < length pilot + n - 1 -> (9 / 10 * best streams n pilot <= correlation streams pilot k)%R <-> exists d, In d starts /\ k = d + (length pilot - 1)) ->
  StronglySorted lt starts -> (forall a b, In a starts -> In b starts -> a < b -> a + 8 * frame / 10 <= b) -> (forall d, In d starts -> d + frame <= n) ->
  synchronize s streams n pilot frame = Ok (map Z.of_nat starts).
Proof.
  intros s streams n pilot frame starts Hs Hp Hf Hb Hk So Sp Fit.
  assert (D : 2 <= 8 * frame / 10) by (apply Nat.div_le_lower_bound; lia).
  destruct n as [|n'] eqn:En.
  { exfalso. destruct (maximum_hit (correlation streams pilot) (length pilot + 0 - 2)) as [k [K E]]. fold (best streams 0 pilot) in E. destruct (proj1 (Hk k ltac:(lia)) ltac:(lra)) as [d [Id _]]. specialize (Fit d Id). lia. }
  rewrite <- En in *. assert (Hn : 1 <= n) by lia. clear En.
  unfold synchronize. destruct (Nat.eqb_spec (length streams * n) 0) as [E|E]; [destruct streams; [congruence|cbn in E; lia]|]. destruct (Nat.eqb_spec (length pilot) 0) as [E2|E2]; [lia|].
  unfold detected. fold (best streams n pilot). cbv zeta. destruct (Nat.ltb_spec (8 * frame / 10) 1) as [E3|E3]; [lia|]. destruct (Req_EM_T (best streams n pilot) 0) as [Z|Z]; [lra|].
  rewrite (find_peaks_spaced _ _ _ _ (map (fun d => d + (length pilot - 1)) starts)).
  - cbn [bind]. f_equal. rewrite map_map. apply map_ext_in. intros d Hd. apply correct_fits; [lia|apply Fit; exact Hd].
  - exact D.
  - clear - So. induction So as [|x l So IH F]; cbn [map]; constructor; [exact IH|]. apply Forall_forall. intros y Y. apply in_map_iff in Y. destruct Y as [z [<- Z]]. rewrite Forall_forall in F. specialize (F z Z). lia.
  - intros p q P Q N. apply in_map_iff in P. apply in_map_iff in Q. destruct P as [a [<- A]]. destruct Q as [b [<- B]].
    destruct (Nat.lt_total a b) as [C|[C|C]]; [specialize (Sp a b A B C); lia|subst; congruence|specialize (Sp b a B A C); lia].
  - intros k K. specialize (Hk k K). split.
    + intro G. rewrite in_map_iff. destruct (proj1 Hk) as [d [Id Ed]]; [|exists d; auto]. apply Rmult_le_compat_r with (r := best streams n pilot) in G; [|lra]. unfold Rdiv in G at 2. rewrite Rmult_assoc, Rinv_l, Rmult_1_r in G by lra. exact G.
    + intro G. apply in_map_iff in G. destruct G as [d [Ed Id]]. assert (G := proj2 Hk (ex_intro _ d (Logic.conj Id (eq_sym Ed)))). apply Rmult_le_reg_r with (best streams n pilot); [lra|]. unfold Rdiv at 2. rewrite Rmult_assoc, Rinv_l, Rmult_1_r by lra. exact G.
  - intros k K. apply in_map_iff in K. destruct K as [d [<- Id]]. specialize (Fit d Id). lia.
Qed.
Print Assumptions C90_exactly_the_correlated_frames.

(** A pilot whose correlation with any shifted copy of itself stays below nine tenths of its energy is found at its exact offset in otherwise silent streams, whatever the gains of the streams. *)
Theorem C90_isolated_pilot : forall s gains streams pilot n d frame, Forall2 (isolated pilot n d) gains streams -> Exists (fun g => g <> RtoC 0) gains ->
  2 <= length pilot -> 3 <= frame -> d + length pilot <= n -> d + frame <= n ->
  (forall lag, lag <> 0%Z -> (Cmod (auto pilot lag) < 9 / 10 * Cmod (auto pilot 0))%R) ->
  synchronize s streams n pilot frame = Ok [Z.of_nat d].
Proof.
  intros s gains streams pilot n d frame Hi Hg Hp Hf Hd Hn Ha.
  assert (G := strength_pos _ Hg). assert (E0 : (0 < Cmod (auto pilot 0))%R). { assert (A := Ha 1%Z ltac:(lia)). assert (B := Cmod_ge_0 (auto pilot 1)). lra. }
  assert (K0 : correlation streams pilot (d + (length pilot - 1)) = (strength gains * Cmod (auto pilot 0))%R).
  { rewrite (correlation_isolated pilot n d gains streams _ Hi Hd ltac:(lia)), Z.sub_diag. reflexivity. }
  assert (L : forall k, k <> d + (length pilot - 1) -> (correlation streams pilot k < 9 / 10 * (strength gains * Cmod (auto pilot 0)))%R).
  { intros k N. rewrite (correlation_isolated pilot n d gains streams _ Hi Hd ltac:(lia)). assert (A := Ha (Z.of_nat k - Z.of_nat (d + (length pilot - 1)))%Z ltac:(lia)). nra. }
  assert (P0 : (0 < strength gains * Cmod (auto pilot 0))%R) by (apply Rmult_lt_0_compat; assumption).
  assert (B : best streams n pilot = (strength gains * Cmod (auto pilot 0))%R).
  { unfold best. rewrite <- K0. apply maximum_unique; [lia|]. intros j _. destruct (Nat.eq_dec j (d + (length pilot - 1))) as [->|N]; [lra|]. specialize (L j N). rewrite K0. lra. }
  change [Z.of_nat d] with (map Z.of_nat [d]). apply C90_exactly_the_correlated_frames; try assumption.
  - intros ->. inversion Hi as [Q|]; subst. inversion Hg.
  - rewrite B. exact P0.
  - intros k K. rewrite B. split.
    + intro H. exists d. split; [left; reflexivity|]. destruct (Nat.eq_dec k (d + (length pilot - 1))) as [E|N]; [exact E|]. specialize (L k N). lra.
    + intros [d' [[<-|[]] ->]]. rewrite K0. lra.
  - constructor; constructor.
  - intros a b [<-|[]] [<-|[]] C. lia.
  - intros a [<-|[]]. exact Hn.
Qed.
Print Assumptions C90_isolated_pilot.

(** The gain of the received signal does not matter. *)
Theorem C90_gain_does_not_matter : forall s g streams n pilot frame, g <> RtoC 0 -> synchronize s (amplified g streams) n pilot frame = synchronize s streams n pilot frame.
Proof.
  intros s g streams n pilot frame Hg. assert (G : (0 < Cmod g)%R) by (apply Cmod_gt_0; exact Hg).
  assert (B : best (amplified g streams) n pilot = (Cmod g * best streams n pilot)%R).
  { unfold best. apply maximum_scale; [lra|]. intro k. apply correlation_amplified. }
  unfold synchronize. unfold amplified at 1. rewrite map_length. destruct (length streams * n =? 0); [reflexivity|]. destruct (length pilot =? 0); [reflexivity|].
  unfold detected. fold (best (amplified g streams) n pilot). fold (best streams n pilot). cbv zeta. rewrite B. destruct (8 * frame / 10 <? 1); [reflexivity|].
  destruct (Req_EM_T (best streams n pilot) 0) as [Z|Z]; destruct (Req_EM_T (Cmod g * best streams n pilot) 0) as [Z'|Z']; try reflexivity.
  - rewrite Z in Z'. lra.
  - apply Rmult_integral in Z'. lra.
  - replace (fun k => correlation (amplified g streams) pilot k / (Cmod g * best streams n pilot))%R with (fun k => correlation streams pilot k / best streams n pilot)%R; [reflexivity|].
    apply functional_extensionality. intro k. rewrite correlation_amplified. field. split; lra.
Qed.
Print Assumptions C90_gain_does_not_matter.

(** An empty signal holds no frames, without a pilot synchronization is refused, as are frames of less than two samples. *)
Theorem C90_errors : forall s streams n pilot frame,
  (length streams * n = 0 -> synchronize s streams n pilot frame = Ok []) /\
  (length streams * n <> 0 -> pilot = [] -> synchronize s streams n pilot frame = Raise RuntimeError) /\
  (length streams * n <> 0 -> pilot <> [] -> frame < 2 -> synchronize s streams n pilot frame = Raise ValueError) /\
  (length streams * n <> 0 -> pilot <> [] -> 2 <= frame -> exists l, synchronize s streams n pilot frame = Ok l).
Proof.
  intros s streams n pilot frame. unfold synchronize. split; [|split; [|split]].
  - intro E. rewrite E. reflexivity.
  - intros E ->. destruct (Nat.eqb_spec (length streams * n) 0); [contradiction|reflexivity].
  - intros E P F. destruct (Nat.eqb_spec (length streams * n) 0); [contradiction|]. destruct (Nat.eqb_spec (length pilot) 0) as [Z|Z]; [destruct pilot; [congruence|discriminate]|].
    unfold detected. cbv zeta. replace (8 * frame / 10) with 0; [reflexivity|]. symmetry. apply Nat.div_small. lia.
  - intros E P F. destruct (Nat.eqb_spec (length streams * n) 0); [contradiction|]. destruct (Nat.eqb_spec (length pilot) 0) as [Z|Z]; [destruct pilot; [congruence|discriminate]|].
    unfold detected. cbv zeta. assert (D : 1 <= 8 * frame / 10) by (apply Nat.div_le_lower_bound; lia). destruct (Nat.ltb_spec (8 * frame / 10) 1); [lia|].
    destruct (Req_EM_T _ 0); cbn [bind]; [eexists; reflexivity|]. unfold find_peaks. destruct (Nat.ltb_spec (8 * frame / 10) 1); [lia|]. cbn [bind]. eexists. reflexivity.
Qed.
Print Assumptions C90_errors.

(** ** The configured threshold and guard ratio are not used *)
Theorem C90_settings_have_no_effect : forall s s' streams n pilot frame, synchronize s streams n pilot frame = synchronize s' streams n pilot frame.
Proof. reflexivity. Qed.
Print Assumptions C90_settings_have_no_effect.

(** Correlation with the pilot [[1; 0]] *)
Lemma correlation_short_pilot : forall x k, 1 <= k <= length x -> correlation [x] [RtoC 1; RtoC 0] k = Cmod (at0 x (k - 1)).
Proof.
  intros x k H. unfold correlation. cbn [map fold_right]. rewrite Rplus_0_r. f_equal. unfold correlate. cbn [length]. replace (2 - 1) with 1 by lia.
  rewrite (csum_ext _ (fun i => if i =? k - 1 then at0 x i else RtoC 0)); [rewrite csum_delta by lia; reflexivity|].
  intros i _. destruct (Nat.eqb_spec i (k - 1)) as [->|N].
  - destruct (Nat.leb_spec k (k - 1 + 1)); [|lia]. replace (k - 1 + 1 - k) with 0 by lia. cbn. rewrite conj_R. ring.
  - destruct (Nat.leb_spec k (i + 1)) as [L|L]; [|reflexivity]. assert (Z : at0 [RtoC 1; RtoC 0] (i + 1 - k) = RtoC 0). { destruct (i + 1 - k) as [|[|m]] eqn:E; [lia|reflexivity|apply at0_out; cbn; lia]. }
    rewrite Z, conj_R. ring.
Qed.
Lemma correlation_short_pilot_0 : forall x, at0 x 0 = RtoC 0 -> correlation [x] [RtoC 1; RtoC 0] 0 = 0%R.
Proof.
  intros x H. unfold correlation. cbn [map fold_right]. rewrite Rplus_0_r. unfold correlate. cbn [length]. rewrite (csum_ext _ (fun _ => RtoC 0)); [rewrite csum_0; apply Cmod_0|].
  intros i _. cbn [Nat.leb]. destruct i as [|i]; [cbn; rewrite conj_R, ?H; ring|]. rewrite (at0_out [RtoC 1; RtoC 0]) by (cbn; lia). rewrite conj_R. ring.
Qed.
(** A weaker frame is found although the threshold is one, within a frame of an earlier one although the guard ratio is one. *)
Definition two_frames : list C := [RtoC 0; RtoC 1; RtoC 0; RtoC 0; RtoC 0; RtoC (95 / 100); RtoC 0; RtoC 0; RtoC 0; RtoC 0].
Lemma cmod_small : forall r, (0 <= r)%R -> Cmod (RtoC r) = r.
Proof. intros r H. rewrite Cmod_R. apply Rabs_pos_eq. exact H. Qed.
Lemma two_frames_correlation : forall k, k < 11 -> correlation [two_frames] [RtoC 1; RtoC 0] k = if k =? 2 then 1%R else if k =? 6 then (95 / 100)%R else 0%R.
Proof.
  intros k K. destruct k as [|k]; [apply correlation_short_pilot_0; reflexivity|]. rewrite correlation_short_pilot by (cbn; lia). replace (S k - 1) with k by lia.
  do 10 (destruct k as [|k]; [cbn [Nat.eqb]; unfold at0, two_frames; cbn [nth]; apply cmod_small; lra|]). lia.
Qed.
Lemma two_frames_found : forall s, synchronize s [two_frames] 10 [RtoC 1; RtoC 0] 5 = Ok (map Z.of_nat [1; 5]).
Proof.
  intro s.
  assert (B : best [two_frames] 10 [RtoC 1; RtoC 0] = 1%R).
  { unfold best. transitivity (correlation [two_frames] [RtoC 1; RtoC 0] 2); [|rewrite two_frames_correlation by lia; reflexivity]. apply maximum_unique; [cbn; lia|]. cbn [length]. intros j J. rewrite !two_frames_correlation by lia. cbn [Nat.eqb]. destruct (j =? 2); [lra|]. destruct (j =? 6); lra. }
  apply C90_exactly_the_correlated_frames; try rewrite B.
  - discriminate.
  - cbn; lia.
  - lia.
  - lra.
  - cbn [length]. intros k K. rewrite two_frames_correlation by lia. destruct (Nat.eqb_spec k 2) as [E|E]; [|destruct (Nat.eqb_spec k 6) as [F|F]].
    + split; [intros _; exists 1; split; [left; reflexivity|lia]|lra].
    + split; [intros _; exists 5; split; [right; left; reflexivity|lia]|lra].
    + split; [lra|]. intros [d [[<-|[<-|[]]] H]]; lia.
  - repeat constructor.
  - intros a b [<-|[<-|[]]] [<-|[<-|[]]] H; cbn; lia.
  - intros d [<-|[<-|[]]]; lia.
Qed.
Theorem C90_settings_refuted : exists s streams pilot frame a b, set_threshold (Sync 0 0) 1 = Ok (Sync 1 0) /\ set_guard_ratio (Sync 1 0) 1 = Ok s /\
  (score streams pilot b < threshold s * score streams pilot a)%R /\ a < b < a + frame /\
  synchronize s streams 10 pilot frame = Ok [Z.of_nat a; Z.of_nat b].
Proof.
  exists (Sync 1 1), [two_frames], [RtoC 1; RtoC 0], 5, 1, 5.
  split; [unfold set_threshold; destruct (Rlt_dec 1 0); [lra|]; destruct (Rlt_dec 1 1); [lra|reflexivity]|].
  split; [unfold set_guard_ratio; destruct (Rlt_dec 1 0); [lra|]; destruct (Rlt_dec 1 1); [lra|reflexivity]|].
  split; [unfold score; cbn [length threshold]; rewrite !two_frames_correlation by lia; cbn [Nat.eqb Nat.add Nat.sub]; lra|]. split; [lia|].
  apply two_frames_found.
Qed.
Print Assumptions C90_settings_refuted.

(** A pilot of one sample is not found in the first sample of a signal. *)
Theorem C90_first_sample_refuted : exists stream, isolated [RtoC 1] 3 0 (RtoC 1) stream /\ forall s, synchronize s [stream] 3 [RtoC 1] 3 = Ok [].
Proof.
  exists [RtoC 1; RtoC 0; RtoC 0]. split.
  - split; [reflexivity|]. intro l. cbn [Nat.leb]. rewrite Nat.sub_0_r. destruct l as [|[|[|l]]]; cbn; try ring. unfold at0. destruct l; cbn; ring.
  - intro s. unfold synchronize, detected. cbn [length Nat.mul Nat.add Nat.eqb]. cbv zeta.
    destruct (Req_EM_T _ 0); [reflexivity|]. unfold find_peaks. cbn [Nat.ltb Nat.leb]. unfold local_maxima. cbn [Nat.sub seq flat_map]. unfold peak_at.
    set (m := maximum (correlation [[RtoC 1; RtoC 0; RtoC 0]] [RtoC 1]) _). assert (M : (0 < m)%R).
    { assert (A := maximum_ge (correlation [[RtoC 1; RtoC 0; RtoC 0]] [RtoC 1]) (1 + 3 - 2) 0 ltac:(lia)). unfold correlation at 1 in A. cbn [map fold_right] in A. rewrite correlate_one in A by (cbn; lia). unfold at0 in A. cbn [nth] in A. rewrite cmod_small in A by lra. unfold m. cbn [Nat.add Nat.sub] in *. lra. }
    match goal with |- context [Rlt_dec ?a ?b] => assert (Hn : ~ (a < b)%R) end.
    { unfold correlation. cbn [map fold_right Nat.sub]. rewrite !correlate_one by (cbn; lia). unfold at0. cbn [nth]. rewrite !cmod_small by lra.
      assert (Q := Rinv_0_lt_compat m M). unfold Rdiv. intro H. nra. }
    destruct (Rlt_dec _ _); [contradiction|]. reflexivity.
Qed.
Print Assumptions C90_first_sample_refuted.

(** A frame longer than the signal can be reported behind the end of the signal. *)
Theorem C90_short_signal_refuted : exists s streams n pilot frame i, synchronize s streams n pilot frame = Ok [i] /\ (Z.of_nat n <= i)%Z.
Proof.
  exists (Sync 0 0), [[RtoC 0; RtoC 1; RtoC 0]], 3, [RtoC 1; RtoC 0], 10, 7%Z. split; [|lia].
  set (x := [RtoC 0; RtoC 1; RtoC 0]).
  assert (V : forall k, k < 4 -> correlation [x] [RtoC 1; RtoC 0] k = if k =? 2 then 1%R else 0%R).
  { intros k K. destruct k as [|k]; [apply correlation_short_pilot_0; reflexivity|]. rewrite correlation_short_pilot by (cbn; lia). replace (S k - 1) with k by lia.
    do 3 (destruct k as [|k]; [cbn [Nat.eqb]; unfold at0, x; cbn [nth]; apply cmod_small; lra|]). lia. }
  assert (B : maximum (correlation [x] [RtoC 1; RtoC 0]) (2 + 3 - 2) = 1%R).
  { transitivity (correlation [x] [RtoC 1; RtoC 0] 2); [|rewrite V by lia; reflexivity]. apply maximum_unique; [cbn; lia|]. intros j J. rewrite !V by lia. cbn [Nat.eqb]. destruct (j =? 2); lra. }
  unfold synchronize, detected. cbn [length Nat.eqb]. change (1 * 3 =? 0) with false. cbv iota zeta. rewrite B. change (8 * 10 / 10 <? 1) with false. destruct (Req_EM_T 1 0) as [|_]; [lra|].
  rewrite (find_peaks_spaced _ _ _ _ [2]); [reflexivity|cbn; lia|repeat constructor| | |].
  - intros p q [<-|[]] [<-|[]]. congruence.
  - intros k K. rewrite V by (cbn in K; lia). destruct (Nat.eqb_spec k 2) as [->|N]; [split; [left; reflexivity|lra]|]. split; [lra|]. intros [E|[]]. lia.
  - intros k [<-|[]]. cbn. lia.
Qed.
Print Assumptions C90_short_signal_refuted.

(** ** Hypotheses are met: a Barker code of three samples, received by two antennas of different gain *)
Definition barker : list C := [RtoC 1; RtoC 1; RtoC (-1)].
Lemma barker_auto : auto barker 0 = RtoC 3 /\ forall lag, lag <> 0%Z -> (Cmod (auto barker lag) <= 1)%R.
Proof.
  split.
  - assert (V0 : atz barker 0 = RtoC 1) by reflexivity. assert (V1 : atz barker 1 = RtoC 1) by reflexivity. assert (V2 : atz barker 2 = RtoC (-1)) by reflexivity.
    unfold auto. cbn [barker length csum]. fold barker. unfold at0. cbn [nth]. change (Z.of_nat 0) with 0%Z. change (Z.of_nat 1) with 1%Z. change (Z.of_nat 2) with 2%Z. rewrite !Z.sub_0_r, V0, V1, V2, !conj_R. apply injective_projections; cbn; ring.
  - intros lag H. assert (D : forall z, (z < 0 \/ 3 <= z)%Z -> atz barker z = RtoC 0).
    { intros z [Z|Z]; unfold atz; [destruct (Z.ltb_spec z 0); [reflexivity|lia]|]. destruct (Z.ltb_spec z 0); [lia|]. apply at0_out. cbn. lia. }
    assert (V0 : atz barker 0 = RtoC 1) by reflexivity. assert (V1 : atz barker 1 = RtoC 1) by reflexivity. assert (V2 : atz barker 2 = RtoC (-1)) by reflexivity.
    unfold auto. cbn [barker length csum]. fold barker. unfold at0. cbn [nth]. change (Z.of_nat 0) with 0%Z. change (Z.of_nat 1) with 1%Z. change (Z.of_nat 2) with 2%Z.
    assert (C : (lag = 1 \/ lag = -1 \/ lag = 2 \/ lag = -2 \/ lag <= -3 \/ 3 <= lag)%Z) by lia.
    destruct C as [->|[->|[->|[->|[C|C]]]]].
    + replace (0 - 1)%Z with (-1)%Z by lia. replace (1 - 1)%Z with 0%Z by lia. replace (2 - 1)%Z with 1%Z by lia. rewrite (D (-1)%Z), V0, V1 by lia. rewrite !conj_R. match goal with |- (Cmod ?a <= _)%R => replace a with (RtoC 0) by (apply injective_projections; cbn; ring) end. rewrite Cmod_0. lra.
    + replace (0 - -1)%Z with 1%Z by lia. replace (1 - -1)%Z with 2%Z by lia. replace (2 - -1)%Z with 3%Z by lia. rewrite (D 3%Z), V1, V2 by lia. rewrite !conj_R. match goal with |- (Cmod ?a <= _)%R => replace a with (RtoC 0) by (apply injective_projections; cbn; ring) end. rewrite Cmod_0. lra.
    + replace (0 - 2)%Z with (-2)%Z by lia. replace (1 - 2)%Z with (-1)%Z by lia. replace (2 - 2)%Z with 0%Z by lia. rewrite (D (-2)%Z), (D (-1)%Z), V0 by lia. rewrite !conj_R. match goal with |- (Cmod ?a <= _)%R => replace a with (RtoC (-1)) by (apply injective_projections; cbn; ring) end. rewrite Cmod_R, Rabs_left; lra.
    + replace (0 - -2)%Z with 2%Z by lia. replace (1 - -2)%Z with 3%Z by lia. replace (2 - -2)%Z with 4%Z by lia. rewrite (D 3%Z), (D 4%Z), V2 by lia. rewrite !conj_R. match goal with |- (Cmod ?a <= _)%R => replace a with (RtoC (-1)) by (apply injective_projections; cbn; ring) end. rewrite Cmod_R, Rabs_left; lra.
    + rewrite !D by lia. rewrite !conj_R. match goal with |- (Cmod ?a <= _)%R => replace a with (RtoC 0) by (apply injective_projections; cbn; ring) end. rewrite Cmod_0. lra.
    + rewrite !D by lia. rewrite !conj_R. match goal with |- (Cmod ?a <= _)%R => replace a with (RtoC 0) by (apply injective_projections; cbn; ring) end. rewrite Cmod_0. lra.
Qed.
Definition received (d n : nat) (g : C) : list C := map (fun l => (g * (if d <=? l then at0 barker (l - d) else RtoC 0))%C) (seq 0 n).
Example C90_isolated_pilot_met : synchronize (Sync (9 / 10) (8 / 10)) [received 2 12 (RtoC 2); received 2 12 (0, 1)%R] 12 barker 6 = Ok [2%Z].
Proof.
  change 2%Z with (Z.of_nat 2). apply (C90_isolated_pilot _ [RtoC 2; (0, 1)%R]); try (cbn; lia).
  - assert (I : forall g, isolated barker 12 2 g (received 2 12 g)).
    { intro g. split; [unfold received; rewrite map_length, seq_length; reflexivity|]. intro l. destruct (Nat.lt_ge_cases l 12) as [L|L].
      - unfold received. rewrite at0_map_seq. destruct (Nat.ltb_spec l 12); [reflexivity|lia].
      - rewrite at0_out by (unfold received; rewrite map_length, seq_length; exact L). destruct (Nat.leb_spec 2 l); [|lia]. rewrite at0_out by (cbn; lia). ring. }
    repeat constructor; apply I.
  - apply Exists_cons_hd. intro H. apply (f_equal fst) in H. cbn in H. lra.
  - intros lag H. destruct barker_auto as [A B]. specialize (B lag H). rewrite A, cmod_small by lra. lra.
Qed.
Example C90_frames_met : exists s streams n pilot frame a b, synchronize s streams n pilot frame = Ok [a; b] /\ frame <= n /\ (0 < a)%Z.
Proof. exists (Sync 1 1), [two_frames], 10, [RtoC 1; RtoC 0], 5, 1%Z, 5%Z. split; [apply two_frames_found|]. lia. Qed.

(** Thresholds and guard ratios between zero and one are accepted and stored, all others are refused. *)
Theorem C90_settings_are_checked : forall s v,
  ((0 <= v <= 1)%R -> set_threshold s v = Ok (Sync v (guard_ratio s)) /\ set_guard_ratio s v = Ok (Sync (threshold s) v)) /\
  (~ (0 <= v <= 1)%R -> set_threshold s v = Raise ValueError /\ set_guard_ratio s v = Raise ValueError).
Proof.
  intros s v. unfold set_threshold, set_guard_ratio. split; intro H; destruct (Rlt_dec v 0); try destruct (Rlt_dec 1 v); try (exfalso; lra); auto.
Qed.
Print Assumptions C90_settings_are_checked.
