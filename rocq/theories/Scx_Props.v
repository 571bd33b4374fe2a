(** Pilots of orthogonal waveforms are generated from their settings unless stale, and Schmidl-Cox synchronization finds symbols with repeating halves *)
From Coq Require Import List Reals Bool Arith ZArith Lia Lra Sorting.Sorted.
From Coq Require Import FunctionalExtensionality.
From Coquelicot Require Import Complex.
From Verif Require Import Base BaseLemmas Cplx Cplx_Proofs Ofdm_Model Ofdm_Proofs Sync_Model Sync_Proofs Scx_Model Scx_Spec Scx_Proofs.
Import ListNotations.
Local Open Scope nat_scope.

(** ** Pilots *)
(** Whatever was done before, a pilot is that of the current elements, subcarriers and oversampling, as long as elements were only replaced by elements and waveforms agree in DC suppression and mapping *)
Theorem C125_pilots_are_fresh : forall dc r sc e w0 l os w, (forall v, w0 = Some v -> suppress v = dc /\ pseudo_random v = r) -> Forall (harmless dc r) l ->
  carrier (run (new_pilot sc e w0) l) = Some w ->
  fst (generate (run (new_pilot sc e w0) l) os) = fresh (new_pilot sc (given (run (new_pilot sc e w0) l)) (Some w)) w os.
Proof.
  intros dc r sc e w0 l os w W H K. assert (V : valid dc r (run (new_pilot sc e w0) l)).
  { apply run_valid; [|exact H]. split; [exact W|discriminate]. }
  destruct (generate_valid dc r _ os V) as [_ G]. rewrite (G w K). apply fresh_same; [|reflexivity]. cbn [schmidl_cox new_pilot].
  assert (S1 : forall l p, schmidl_cox (run p l) = schmidl_cox p).
  { clear. intro l. induction l as [|o l IH]; intro p; [reflexivity|]. cbn [run fold_left]. change (fold_left step l (step p o)) with (run (step p o) l). rewrite IH. destruct o as [e|w|os]; cbn [step]; [|reflexivity|].
    - destruct (set_elements p e) as [q|x] eqn:E; [|reflexivity]. unfold set_elements in E. destruct e as [v|]; [destruct (negb _); [discriminate|]; destruct (_ <? _); [discriminate|]|]; injection E as <-; reflexivity.
    - unfold generate. destruct (carrier p) as [w|]; [|reflexivity]. cbv zeta. destruct (match cached p with Some _ => _ | None => _ end); [reflexivity|]. destruct (fresh p w os); reflexivity. }
  rewrite S1. reflexivity.
Qed.
Print Assumptions C125_pilots_are_fresh.
Example C125_pilots_are_fresh_met :
  Forall (harmless false (fun n => repeat (RtoC 1) n)) [Generate 1; Elements (Some (mkElements 1 1 [RtoC 2])); Generate 1; Waveform (Some (mkWave 8 false (fun n => repeat (RtoC 1) n))); Generate 2].
Proof. repeat apply Forall_cons; try exact I; try discriminate; try apply Forall_nil. cbn [harmless]. intros v E. injection E as <-. split; reflexivity. Qed.
(** Elements just set are those of the next pilot *)
Theorem C125_new_elements : forall p v p' w os, set_elements p (Some v) = Ok p' -> carrier p = Some w ->
  num_streams v = 1 /\ 1 <= num_symbols v /\ fst (generate p' os) = fresh (new_pilot (schmidl_cox p) (Some v) (Some w)) w os.
Proof.
  intros p v p' w os E K. unfold set_elements in E. destruct (Nat.eqb_spec (num_streams v) 1) as [S1|S1]; cbn [negb] in E; [|discriminate]. destruct (Nat.ltb_spec (num_symbols v) 1) as [S2|S2]; [discriminate|]. injection E as <-.
  split; [exact S1|]. split; [exact S2|]. unfold generate. cbn [carrier cached]. rewrite K. cbv zeta. rewrite <- (fresh_same (mkPilot (schmidl_cox p) (Some v) (Some w) None) (new_pilot (schmidl_cox p) (Some v) (Some w)) w os eq_refl eq_refl).
  destruct (fresh _ w os); reflexivity.
Qed.
Print Assumptions C125_new_elements.
Example C125_new_elements_met : set_elements (new_pilot true None (Some (mkWave 4 false (fun n => repeat (RtoC 1) n)))) (Some (mkElements 1 1 [RtoC 2]))
  = Ok (mkPilot true (Some (mkElements 1 1 [RtoC 2])) (Some (mkWave 4 false (fun n => repeat (RtoC 1) n))) None).
Proof. reflexivity. Qed.
(** Elements of several or of empty streams are refused, except by the constructor *)
Theorem C125_elements_are_checked : forall p v, num_streams v <> 1 \/ num_symbols v = 0 -> set_elements p (Some v) = Raise ValueError.
Proof. intros p v H. unfold set_elements. destruct (Nat.eqb_spec (num_streams v) 1); cbn [negb]; [|reflexivity]. destruct (Nat.ltb_spec (num_symbols v) 1); [reflexivity|]. lia. Qed.
Print Assumptions C125_elements_are_checked.
Theorem C125_constructor_refuted : forall sc v w os, num_symbols v = 0 -> fst (generate (new_pilot sc (Some v) (Some w)) os) = Raise ZeroDivisionError.
Proof.
  intros sc v w os H. unfold generate. cbn [new_pilot carrier cached]. unfold fresh, pilot_symbols. cbn [schmidl_cox given]. cbv zeta. assert (Q : forall n, sequence (Some v) w n = Raise ZeroDivisionError) by (intro n; unfold sequence; rewrite H; reflexivity). unfold new_pilot. cbn [schmidl_cox given]. unfold stuffed_sequence. rewrite !Q. destruct sc; reflexivity.
Qed.
Print Assumptions C125_constructor_refuted.
Example C125_elements_met : num_streams (mkElements 2 1 [RtoC 1; RtoC 2]) <> 1 /\ num_symbols (mkElements 1 0 []) = 0.
Proof. split; [discriminate|reflexivity]. Qed.
Theorem C125_without_waveform : forall p os, carrier p = None -> generate p os = (Raise RuntimeError, p).
Proof. intros p os H. unfold generate. rewrite H. reflexivity. Qed.
Print Assumptions C125_without_waveform.
(** After the elements were removed, or the waveform was exchanged by one with as many subcarriers, the old pilot is generated still *)
Theorem C125_stale_pilots_refuted : forall p os x w, carrier p = Some w -> fst (generate p os) = Ok x ->
  (forall p', set_elements (snd (generate p os)) None = Ok p' -> given p' = None /\ fst (generate p' os) = Ok x) /\
  (forall w', subcarriers w' = subcarriers w -> fst (generate (set_wave (snd (generate p os)) (Some w')) os) = Ok x).
Proof.
  intros p os x w K G. assert (C : carrier (snd (generate p os)) = Some w /\ cached (snd (generate p os)) = Some (subcarriers w, os, x)).
  { unfold generate in *. rewrite K in *. cbv zeta in *. destruct (cached p) as [[[n o] y]|] eqn:H.
    - destruct ((n =? subcarriers w) && (o =? os)) eqn:T; cbn [fst snd] in *.
      + apply andb_prop in T. destruct T as [T1 T2]. apply Nat.eqb_eq in T1. apply Nat.eqb_eq in T2. split; [exact K|]. injection G as ->. congruence.
      + destruct (fresh p w os) as [z|z]; cbn [fst snd carrier cached] in *; [|discriminate]. injection G as ->. auto.
    - destruct (fresh p w os) as [z|z]; cbn [fst snd carrier cached] in *; [|discriminate]. injection G as ->. auto. }
  destruct C as [C1 C2]. split.
  - intros p' E. unfold set_elements in E. injection E as <-. split; [reflexivity|]. unfold generate at 1. cbn [carrier cached]. rewrite C1, C2, !Nat.eqb_refl. reflexivity.
  - intros w' E. unfold generate at 1. cbn [set_wave carrier cached]. rewrite C2, E, !Nat.eqb_refl. reflexivity.
Qed.
Print Assumptions C125_stale_pilots_refuted.
(** Such a pilot is not that of the settings *)
Theorem C125_removed_elements_refuted : exists w v, let p := run (new_pilot false (Some v) (Some w)) [Generate 1; Elements None] in
  given p = None /\ fst (generate p 1) <> fresh p w 1.
Proof.
  exists (mkWave 1 false (fun n => repeat (RtoC 1) n)), (mkElements 1 1 [RtoC 2]). cbv zeta. split; [reflexivity|].
  assert (D : forall z, ofdm_forward_word false 1 1 [z] = [z]).
  { intro z. unfold ofdm_forward_word. cbv zeta. replace (pad_start 1 1) with 0 by reflexivity. replace (1 * 1 - 1 - 0) with 0 by reflexivity. cbn [repeat app map]. unfold ifftshift, roll_left. cbn [length Nat.div Nat.divmod fst skipn firstn app].
    unfold ifft. cbn [length tab map seq]. unfold tab. cbn [map seq]. unfold ifft_at, turn. cbn [ifft_scale csum INR at0 nth]. replace (2 * PI * 0 * 0 / 1)%R with 0%R by field. rewrite cis_0, sqrt_1. f_equal. unfold Cdiv. replace (/ RtoC 1)%C with (RtoC 1) by (apply C_ext; cbn; field). ring. }
  set (w := mkWave 1 false (fun n => repeat (RtoC 1) n)). set (v := mkElements 1 1 [RtoC 2]).
  assert (F1 : fresh (new_pilot false (Some v) (Some w)) w 1 = Ok [RtoC 2]). { transitivity (Ok (A := list C) (ofdm_forward_word false 1 1 [RtoC 2])); [reflexivity|]. rewrite D. reflexivity. }
  assert (F2 : forall c, fresh (mkPilot false None (Some w) c) w 1 = Ok [RtoC 1]). { intro c. transitivity (Ok (A := list C) (ofdm_forward_word false 1 1 [RtoC 1])); [reflexivity|]. rewrite D. reflexivity. }
  assert (G : generate (new_pilot false (Some v) (Some w)) 1 = (Ok [RtoC 2], mkPilot false (Some v) (Some w) (Some (1, 1, [RtoC 2])))). { unfold generate. cbn [new_pilot carrier cached]. cbv zeta. rewrite F1. reflexivity. }
  cbn [run fold_left step]. rewrite G. cbn [snd set_elements schmidl_cox carrier cached]. rewrite F2. unfold generate. cbn [carrier cached subcarriers w Nat.eqb andb fst]. intro E. injection E as E. lra.
Qed.
Print Assumptions C125_removed_elements_refuted.
(** Elements are repeated over all subcarriers *)
Theorem C125_elements_are_repeated : forall v w n b i, 1 <= num_symbols v -> 1 <= b -> length (flat v) = b * num_symbols v -> i < n ->
  exists x, sequence (Some v) w n = Ok x /\ length x = n /\ at0 x i = at0 (flat v) (i mod length (flat v)).
Proof.
  intros v w n b i V B L I. unfold sequence. destruct (Nat.eqb_spec (num_symbols v) 0) as [E|_]; [lia|]. eexists. split; [reflexivity|]. set (l := flat v) in *. assert (L0 : length l <> 0) by nia.
  assert (R : forall k j, j < k * length l -> nth j (concat (repeat l k)) (RtoC 0) = nth (j mod length l) l (RtoC 0)).
  { intro k. induction k as [|k IH]; intros j J; [lia|]. cbn [repeat concat]. destruct (Nat.lt_ge_cases j (length l)) as [A|A]; [rewrite app_nth1 by exact A; rewrite Nat.mod_small by exact A; reflexivity|].
    rewrite app_nth2 by exact A. rewrite IH by lia. f_equal. rewrite <- (Nat.mod_add (j - length l) 1) by exact L0. f_equal. lia. }
  assert (LC : forall k, length (concat (repeat l k)) = k * length l). { intro k. induction k as [|k IH]; [reflexivity|]. cbn [repeat concat]. rewrite app_length, IH. lia. }
  assert (K : n <= ceil_div n (num_symbols v) * length l).
  { assert (Q := ceil_div_spec n (num_symbols v) V). rewrite L. assert (num_symbols v * ceil_div n (num_symbols v) <= ceil_div n (num_symbols v) * (b * num_symbols v)) by nia. lia. }
  split; [rewrite firstn_length, LC; lia|]. unfold at0. rewrite nth_firstn' by exact I. apply R. lia.
Qed.
Print Assumptions C125_elements_are_repeated.
Example C125_elements_are_repeated_met : 1 <= num_symbols (mkElements 1 2 [RtoC 1; RtoC 2]) /\ length (flat (mkElements 1 2 [RtoC 1; RtoC 2])) = 1 * 2 /\ 4 < 5.
Proof. cbn. lia. Qed.

(** ** Symbols of the Schmidl-Cox pilot *)
Lemma forward_halves : forall e w os y, fresh (new_pilot true e (Some w)) w os = Ok y -> exists l, y = ofdm_forward_word (suppress w) (subcarriers w) os (if suppress w then roll_head_right (subcarriers w / 2) (stuffed (subcarriers w) l) else stuffed (subcarriers w) l).
Proof.
  intros e w os y F. unfold fresh, pilot_symbols in F. cbn [new_pilot schmidl_cox given] in F. unfold stuffed_sequence in F. destruct (sequence e w (ceil_div (subcarriers w) 2)) as [l|x]; cbn [bind] in F; [|discriminate].
  destruct (stuff (subcarriers w) l) as [s|x] eqn:S; cbn [bind] in F; [|discriminate]. injection F as <-. destruct (stuff_inv _ _ _ S) as [k ->]. exists k. reflexivity.
Qed.
(** The pilot occupies every other subcarrier, the first one included *)
Theorem C125_every_other_subcarrier : forall e w l x, sequence e w (ceil_div (subcarriers w) 2) = Ok l -> length l = ceil_div (subcarriers w) 2 -> suppress w = false ->
  pilot_symbols (new_pilot true e (Some w)) w = Ok x -> length x = subcarriers w /\
  forall i, (2 * i < subcarriers w -> at0 x (2 * i) = at0 l i) /\ at0 x (2 * i + 1) = RtoC 0.
Proof.
  intros e w l x S L D P. unfold pilot_symbols in P. cbn [new_pilot schmidl_cox given] in P. unfold stuffed_sequence in P. rewrite S in P. cbn [bind] in P. unfold stuff in P. rewrite L, Nat.eqb_refl in P. cbn [bind] in P. rewrite D in P. injection P as <-.
  split; [apply length_stuffed|]. intro i. split.
  - intro I. unfold at0 at 1, stuffed. rewrite nth_tab by exact I. rewrite Nat.even_mul. cbn [Nat.even orb]. f_equal. rewrite Nat.mul_comm. apply Nat.div_mul. lia.
  - destruct (Nat.lt_ge_cases (2 * i + 1) (subcarriers w)) as [A|A]; [|apply at0_out; rewrite length_stuffed; exact A]. apply stuffed_odd; [exact A|]. rewrite Nat.even_add, Nat.even_mul. reflexivity.
Qed.
Print Assumptions C125_every_other_subcarrier.
(** Its second half is the first one, or the negative of it *)
Theorem C125_halves_repeat : forall e w os y h, fresh (new_pilot true e (Some w)) w os = Ok y -> 2 <= subcarriers w -> 1 <= os -> os * subcarriers w = 2 * h ->
  (suppress w = true -> Nat.even (subcarriers w / 2) = true) ->
  length y = 2 * h /\ forall t, t < h -> at0 y (h + t) = ((if negb (suppress w) && Nat.even (subcarriers w / 2) then RtoC 1 else - RtoC 1) * at0 y t)%C.
Proof.
  intros e w os y h F N O H2 D. destruct (forward_halves _ _ _ _ F) as [l ->]. set (n := subcarriers w) in *. destruct (suppress w) eqn:S; cbn [negb andb].
  - specialize (D eq_refl). split; [rewrite length_forward; [exact H2|lia|lia|rewrite length_roll_head; apply length_stuffed]|]. intros t T. rewrite forward_padded. apply (halves_of _ h false).
    + rewrite length_padded; [exact H2|lia|lia|rewrite length_roll_head; apply length_stuffed].
    + exact T.
    + intros p P. apply parity_suppressed; [exact N|lia|exact H2|exact D|exact P].
  - split; [rewrite length_forward; [exact H2|lia|lia|apply length_stuffed]|]. intros t T. rewrite forward_padded. apply (halves_of _ h (Nat.even (n / 2))).
    + rewrite length_padded; [exact H2|lia|lia|apply length_stuffed].
    + exact T.
    + intros p P. apply parity_plain; [lia|lia|apply length_stuffed|exact H2| |exact P]. intros j J Z. destruct (Nat.even j) eqn:K; [reflexivity|]. exfalso. apply Z. apply stuffed_odd; assumption.
Qed.
Print Assumptions C125_halves_repeat.
Example C125_halves_repeat_met : exists y, fresh (new_pilot true (Some (mkElements 1 1 [RtoC 1])) (Some (mkWave 4 true (fun _ => [])))) (mkWave 4 true (fun _ => [])) 2 = Ok y /\ 2 * 4 = 2 * 4 /\ Nat.even (4 / 2) = true.
Proof. eexists. split; [reflexivity|]. split; reflexivity. Qed.
(** With DC suppressed and half the subcarriers odd in number, the halves differ *)
Theorem C125_suppressed_halves_refuted : exists e w y, subcarriers w = 6 /\ suppress w = true /\ fresh (new_pilot true e (Some w)) w 1 = Ok y /\ forall u, Cmod u = 1%R -> at0 y 3 <> (u * at0 y 0)%C.
Proof.
  exists (Some (mkElements 1 1 [RtoC 1])), (mkWave 6 true (fun _ => [])). eexists. split; [reflexivity|]. split; [reflexivity|]. split; [reflexivity|]. cbn [subcarriers suppress].
  match goal with |- context [ofdm_forward_word _ _ _ ?a] => set (x := a) end.
  assert (X : x = [RtoC 1; RtoC 1; RtoC 0; RtoC 0; RtoC 1; RtoC 0]) by reflexivity. clearbody x. subst x.
  rewrite forward_padded. match goal with |- context [ifftshift ?a] => set (z := a) end.
  set (q := (RtoC 1 / RtoC (sqrt (INR 6)))%C). assert (Z : z = [q; q; RtoC 0 / RtoC (sqrt (INR 6)); RtoC 0 / RtoC (sqrt (INR 6)); RtoC 0 / RtoC (sqrt (INR 6)); q]%C) by reflexivity. clearbody z. subst z.
  assert (S6 : (sqrt (INR 6) <> 0)%R) by (apply Rgt_not_eq, sqrt_lt_R0; cbn; lra).
  replace (RtoC 0 / RtoC (sqrt (INR 6)))%C with (RtoC 0) by (unfold Cdiv; ring).
  rewrite !ifft_shifted by (cbn; lia). cbn [length]. replace (6 / 2) with 3 by reflexivity. cbn [csum at0 nth].
  assert (T0 : forall a b, cis (2 * PI * a * INR 0 / b) = RtoC 1) by (intros a b; cbn [INR]; replace (2 * PI * a * 0 / b)%R with 0%R by (unfold Rdiv; ring); apply cis_0).
  rewrite !T0. assert (Q3 : forall k, cis (2 * PI * (INR k - INR 3) * INR 3 / INR 6) = (if Nat.even k then - RtoC 1 else RtoC 1)%C).
  { intro k. replace (2 * PI * (INR k - INR 3) * INR 3 / INR 6)%R with (PI * INR (k + 1) + - (2 * PI * INR 2))%R by (rewrite plus_INR; cbn [INR]; field). rewrite cis_add, cis_neg_2PI_nat, cis_pi, Nat.add_1_r, Nat.even_succ, <- Nat.negb_even. destruct (Nat.even k); cbn [negb]; ring. }
  rewrite !Q3. cbn [Nat.even]. intros u U E. assert (M : Cmod q = Cmod (u * (RtoC 3 * q))%C). { f_equal. transitivity (RtoC 0 + q * - RtoC 1 + q * RtoC 1 + RtoC 0 * - RtoC 1 + RtoC 0 * RtoC 1 + RtoC 0 * - RtoC 1 + q * RtoC 1)%C; [ring|]. rewrite E. replace (RtoC 3) with (RtoC 1 + RtoC 1 + RtoC 1)%C by (apply C_ext; cbn; ring). ring. }
  rewrite !Cmod_mult, U, Cmod_R in M. rewrite Rabs_pos_eq in M by lra. assert (P : (0 < Cmod q)%R). { apply Cmod_gt_0. intro W. unfold q in W. apply S6. apply (f_equal (fun c => (c * RtoC (sqrt (INR 6)))%C)) in W. unfold Cdiv in W. rewrite <- Cmult_assoc, Cinv_l in W by (intro H; injection H; exact S6). rewrite Cmult_1_l, Cmult_0_l in W. injection W. lra. }
  lra.
Qed.
Print Assumptions C125_suppressed_halves_refuted.

(** ** Synchronization *)
(** All indices lie within the signal, ascending and nine tenths of a frame apart, and at least one sample follows each symbol *)
Theorem C125_within_the_signal : forall streams n len frame l, synchronize streams n len frame = Ok l -> StronglySorted lt l /\
  (forall i, In i l -> i + len < n) /\ (forall i j, In i l -> In j l -> i < j -> i + 9 * frame / 10 <= j).
Proof.
  intros streams n len frame l H. unfold synchronize in H. destruct (Nat.ltb_spec n len) as [A|A]; [injection H as <-; split; [constructor|split; [intros i []|intros i j []]]|]. cbv zeta in H.
  destruct (find_peaks _ _ _ _) as [peaks|] eqn:P; cbn [bind] in H; [|discriminate]. injection H as <-. destruct (find_peaks_ok _ _ _ _ _ P) as [So [Ap [I _]]]. split; [|split].
  - clear P Ap. induction So as [|p r So IH F]; cbn [map]; constructor; [apply IH; intros q Q; apply I; right; exact Q|]. rewrite Forall_forall in F |- *. intros y Y. apply in_map_iff in Y. destruct Y as [q [<- Q]]. specialize (F q Q). destruct (I p (or_introl eq_refl)) as [_ [I1 _]]. lia.
  - intros i J. apply in_map_iff in J. destruct J as [p [<- J]]. destruct (I p J) as [_ [I1 I2]]. lia.
  - intros i j J K L. apply in_map_iff in J. destruct J as [p [<- J]]. apply in_map_iff in K. destruct K as [q [<- K]]. destruct (I p J) as [_ [I1 _]]. assert (B := Ap p q J K ltac:(lia)). lia.
Qed.
Print Assumptions C125_within_the_signal.
(** Signals shorter than a symbol contain no frame, and only frames of less than two samples raise *)
Theorem C125_errors : forall streams n len frame, (n < len -> synchronize streams n len frame = Ok []) /\
  (len <= n -> frame < 2 -> synchronize streams n len frame = Raise ValueError) /\ (2 <= frame -> exists l, synchronize streams n len frame = Ok l).
Proof.
  intros streams n len frame. unfold synchronize. cbv zeta. split; [|split].
  - intro H. apply Nat.ltb_lt in H. rewrite H. reflexivity.
  - intros H F. apply Nat.ltb_ge in H. rewrite H. unfold find_peaks. destruct frame as [|[|f]]; [reflexivity|reflexivity|lia].
  - intro F. destruct (n <? len); [eexists; reflexivity|]. unfold find_peaks. assert (D : 1 <= 9 * frame / 10) by (apply Nat.div_le_lower_bound; lia). destruct (Nat.ltb_spec (9 * frame / 10) 1); [lia|]. cbn [bind]. eexists. reflexivity.
Qed.
Print Assumptions C125_errors.
(** A symbol with repeating halves in silence is found exactly, if a sample follows *)
Theorem C125_repeating_symbol_found : forall streams n d half frame, 1 <= half -> 2 <= frame -> d + 2 * half < n -> (forall s, In s streams -> exists u, Cmod u = 1%R /\ repeating n d half u s) ->
  (exists s, In s streams /\ at0 s d <> RtoC 0) -> (exists s, In s streams /\ at0 s (d + half - 1) <> RtoC 0) ->
  synchronize streams n (2 * half) frame = Ok [d].
Proof.
  intros streams n d half frame Hh Hf Hn R F L. unfold synchronize. destruct (Nat.ltb_spec n (2 * half)); [lia|]. cbv zeta. replace (2 * half / 2) with half by (rewrite Nat.mul_comm; symmetry; apply Nat.div_mul; lia).
  rewrite (powers_max n d half streams) by (first [exact R|lia]). rewrite (one_peak _ _ (S d)).
  - cbn [bind map]. replace (S d - 1) with d by lia. reflexivity.
  - apply (powers_rise n); [exact Hh|exact R].
  - lia.
  - replace (S d - 1) with d by lia. apply (powers_before n); assumption.
  - apply (powers_after n); assumption.
  - intros i I _. apply (powers_fall n d); assumption.
  - assert (P := powers_nonneg n d half streams R (S d)). lra.
  - apply Nat.div_le_lower_bound; lia.
Qed.
Print Assumptions C125_repeating_symbol_found.
(** The same symbol at the very end of the signal is not found *)
Theorem C125_last_symbol_refuted : forall streams n d half frame, 1 <= half -> 2 <= frame -> d + 2 * half = n -> (forall s, In s streams -> exists u, Cmod u = 1%R /\ repeating n d half u s) ->
  synchronize streams n (2 * half) frame = Ok [].
Proof.
  intros streams n d half frame Hh Hf Hn R. unfold synchronize. destruct (Nat.ltb_spec n (2 * half)); [lia|]. cbv zeta. replace (2 * half / 2) with half by (rewrite Nat.mul_comm; symmetry; apply Nat.div_mul; lia).
  rewrite no_peak; [reflexivity| |apply Nat.div_le_lower_bound; lia]. replace (2 + n - 2 * half - 1) with (S d) by lia. apply (powers_rise n); assumption.
Qed.
Print Assumptions C125_last_symbol_refuted.
(** Nothing is found in a signal of a single symbol *)
Theorem C125_single_symbol_refuted : forall streams n frame, 2 <= frame -> synchronize streams n n frame = Ok [].
Proof.
  intros streams n frame F. unfold synchronize. destruct (Nat.ltb_spec n n); [lia|]. cbv zeta. replace (2 + n - n) with 2 by lia. unfold find_peaks. assert (D : 1 <= 9 * frame / 10) by (apply Nat.div_le_lower_bound; lia). destruct (Nat.ltb_spec (9 * frame / 10) 1); [lia|]. reflexivity.
Qed.
Print Assumptions C125_single_symbol_refuted.
(** The pilot generated is found, whatever its gain on each antenna *)
Theorem C125_pilot_found : forall e w os y h d r gains frame, fresh (new_pilot true e (Some w)) w os = Ok y -> 2 <= subcarriers w -> 1 <= os -> os * subcarriers w = 2 * h ->
  (suppress w = true -> Nat.even (subcarriers w / 2) = true) -> at0 y 0 <> RtoC 0 -> at0 y (h - 1) <> RtoC 0 -> 1 <= r -> 2 <= frame -> Exists (fun g => g <> RtoC 0) gains ->
  synchronize (map (embedded d r y) gains) (d + os * subcarriers w + r) (os * subcarriers w) frame = Ok [d].
Proof.
  intros e w os y h d r gains frame F N O H2 D Z0 Z1 Hr Hf G. assert (Hh : 1 <= h) by nia. destruct (C125_halves_repeat e w os y h F N O H2 D) as [L U]. rewrite H2.
  assert (A : forall g i, at0 (embedded d r y g) i = if i <? d then RtoC 0 else (g * at0 y (i - d))%C).
  { intros g i. unfold embedded, at0 at 1. destruct (Nat.ltb_spec i d) as [B|B]; [rewrite app_nth1 by (rewrite repeat_length; exact B); apply nth_repeat'; exact B|]. rewrite app_nth2 by (rewrite repeat_length; exact B). rewrite repeat_length.
    rewrite <- (at0_scaled g y (i - d)). unfold at0. destruct (Nat.lt_ge_cases (i - d) (length (map (Cmult g) y))) as [C|C]; [apply app_nth1; exact C|]. rewrite app_nth2 by exact C. rewrite (nth_overflow (map (Cmult g) y)) by exact C.
    destruct (Nat.lt_ge_cases (i - d - length (map (Cmult g) y)) r) as [E|E]; [apply nth_repeat'; exact E|apply nth_overflow; rewrite repeat_length; exact E]. }
  assert (NZ : forall g z, g <> RtoC 0 -> z <> RtoC 0 -> (g * z)%C <> RtoC 0) by (intros g z; apply Cmult_neq_0).
  apply Exists_exists in G. destruct G as [g [Gi Gz]]. apply C125_repeating_symbol_found; [exact Hh|exact Hf|lia| | |].
  - intros s S. apply in_map_iff in S. destruct S as [c [<- _]]. exists (if negb (suppress w) && Nat.even (subcarriers w / 2) then RtoC 1 else - RtoC 1)%C. split; [destruct (_ && _); [rewrite Cmod_1; reflexivity|rewrite Cmod_opp, Cmod_1; reflexivity]|].
    split; [unfold embedded; rewrite !app_length, !repeat_length, map_length, L; lia|]. split.
    + intros l [B|B]; rewrite A; destruct (Nat.ltb_spec l d); try lia; [reflexivity|]. rewrite (at0_out y) by lia. ring.
    + intros i I. rewrite !A. destruct (Nat.ltb_spec (d + h + i) d); [lia|]. destruct (Nat.ltb_spec (d + i) d); [lia|]. replace (d + h + i - d) with (h + i) by lia. replace (d + i - d) with i by lia. rewrite U by exact I. ring.
  - exists (embedded d r y g). split; [apply in_map; exact Gi|]. rewrite A. destruct (Nat.ltb_spec d d); [lia|]. rewrite Nat.sub_diag. apply NZ; assumption.
  - exists (embedded d r y g). split; [apply in_map; exact Gi|]. rewrite A. destruct (Nat.ltb_spec (d + h - 1) d); [lia|]. replace (d + h - 1 - d) with (h - 1) by lia. apply NZ; assumption.
Qed.
Print Assumptions C125_pilot_found.
(** A pilot on the first of four subcarriers *)
Example C125_pilot_found_met : exists y, fresh (new_pilot true (Some (mkElements 1 2 [RtoC 1; RtoC 0])) (Some (mkWave 4 false (fun _ => [])))) (mkWave 4 false (fun _ => [])) 1 = Ok y /\
  1 * 4 = 2 * 2 /\ at0 y 0 <> RtoC 0 /\ at0 y (2 - 1) <> RtoC 0 /\ Exists (fun g => g <> RtoC 0) [RtoC 0; RtoC 2].
Proof.
  eexists. split; [reflexivity|]. split; [reflexivity|]. cbn [subcarriers suppress]. match goal with |- context [ofdm_forward_word _ _ _ ?a] => set (x := a) end.
  assert (X : x = [RtoC 1; RtoC 0; RtoC 0; RtoC 0]) by reflexivity. clearbody x. subst x. rewrite forward_padded. match goal with |- context [ifftshift ?a] => set (z := a) end.
  set (q := (RtoC 1 / RtoC (sqrt (INR 4)))%C). assert (Z : z = [q; RtoC 0 / RtoC (sqrt (INR 4)); RtoC 0 / RtoC (sqrt (INR 4)); RtoC 0 / RtoC (sqrt (INR 4))]%C) by reflexivity. clearbody z. subst z.
  replace (RtoC 0 / RtoC (sqrt (INR 4)))%C with (RtoC 0) by (unfold Cdiv; ring). assert (S4 : (sqrt (INR 4) <> 0)%R) by (apply Rgt_not_eq, sqrt_lt_R0; cbn; lra).
  assert (P : q <> RtoC 0). { intro W. unfold q in W. apply (f_equal (fun c => (c * RtoC (sqrt (INR 4)))%C)) in W. unfold Cdiv in W. rewrite <- Cmult_assoc, Cinv_l in W by (intro H; injection H; exact S4). rewrite Cmult_1_l, Cmult_0_l in W. injection W. lra. }
  assert (K : forall a, (q * cis a)%C <> RtoC 0). { intros a W. apply Cmult_neq_0 in W; [exact W|exact P|]. intro V. assert (M := cmod_cis a). rewrite V, Cmod_0 in M. lra. }
  rewrite !ifft_shifted by (cbn; lia). cbn [length csum at0 nth]. split; [|split].
  - intro W. apply (K (2 * PI * (INR 0 - INR (4 / 2)) * INR 0 / INR 4)%R). rewrite <- W. ring.
  - intro W. apply (K (2 * PI * (INR 0 - INR (4 / 2)) * INR (2 - 1) / INR 4)%R). rewrite <- W. ring.
  - right. left. intro W. injection W. lra.
Qed.
(** Carrier frequency offsets and gains do not matter *)
Theorem C125_frequency_offset : forall w streams n len frame, synchronize (map (shifted w) streams) n len frame = synchronize streams n len frame.
Proof.
  intros w streams n len frame. unfold synchronize. destruct (n <? len); [reflexivity|]. cbv zeta. assert (E : powers (map (shifted w) streams) (len / 2) = powers streams (len / 2)).
  { apply functional_extensionality. intro k. destruct k as [|d]; [reflexivity|]. cbn [powers]. rewrite map_map. f_equal. apply map_ext. intro s. rewrite halves_shifted, Cmod_mult, cmod_cis. ring. }
  rewrite E. reflexivity.
Qed.
Print Assumptions C125_frequency_offset.
Theorem C125_gain : forall g streams n len frame, g <> RtoC 0 -> synchronize (map (map (Cmult g)) streams) n len frame = synchronize streams n len frame.
Proof.
  intros g streams n len frame G. unfold synchronize. destruct (n <? len); [reflexivity|]. cbv zeta. set (a := (Cmod g * Cmod g)%R). assert (A : (0 < a)%R) by (apply Cmod_gt_0 in G; apply Rmult_lt_0_compat; exact G).
  assert (E : powers (map (map (Cmult g)) streams) (len / 2) = (fun k => a * powers streams (len / 2) k)%R).
  { apply functional_extensionality. intro k. destruct k as [|d]; cbn [powers]; [ring|]. rewrite map_map. induction streams as [|s r IH]; cbn [map fold_right]; [ring|]. rewrite IH, halves_amplified, Cmod_mult, Cmod_R, Rabs_pos_eq by (fold a; lra). fold a. ring. }
  rewrite E. rewrite (maximum_scale (powers streams (len / 2)) (fun k => a * powers streams (len / 2) k)%R a) by (first [lra|reflexivity]).
  replace (3 / 4 * (a * maximum (powers streams (len / 2)) (2 + n - len - 1)))%R with (a * (3 / 4 * maximum (powers streams (len / 2)) (2 + n - len - 1)))%R by ring.
  rewrite find_peaks_scale by exact A. reflexivity.
Qed.
Print Assumptions C125_gain.
Example C125_gain_met : RtoC 2 <> RtoC 0.
Proof. intro W. injection W. lra. Qed.
