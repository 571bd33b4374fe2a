(** C35, C57: logarithmic numbers and sequences. *)
From Coq Require Import Reals List Arith Bool Lia Lra.
From Verif Require Import Base BaseLemmas Log_Model.
Import ListNotations.
Open Scope R_scope.

Lemma ln10_pos : 0 < ln 10.
Proof. rewrite <- ln_1. apply ln_increasing; lra. Qed.
Lemma factor_pos c : 0 < factor c.
Proof. destruct c; cbn; lra. Qed.
Lemma db2lin_pos x c : 0 < db2lin x c.
Proof. apply exp_pos. Qed.

(** *** Conversion *)

(** Conversion to decibel and back are inverse, for both types of conversion. *)
Theorem C35_conversion_round_trip : forall c,
  (forall x, 0 < db2lin x c /\ lin2db (db2lin x c) c = x) /\ (forall v, 0 < v -> db2lin (lin2db v c) c = v).
Proof.
  intro c. pose proof ln10_pos as L. pose proof (factor_pos c) as F. split.
  - intro x. split; [apply db2lin_pos|]. unfold lin2db, db2lin, Rpower. rewrite ln_exp. field. split; lra.
  - intros v Hv. unfold lin2db, db2lin, Rpower. replace (factor c * (ln v / ln 10) / factor c * ln 10) with (ln v) by (field; split; lra).
    apply exp_ln, Hv.
Qed.
Print Assumptions C35_conversion_round_trip.

(** Ten decibel are a factor of ten in power, twenty a factor of ten in amplitude; a decibel
    value describes a power that is the square of the amplitude it describes. *)
Theorem C35_power_and_amplitude : forall x,
  db2lin (x + 10) Power = 10 * db2lin x Power /\ db2lin (x + 20) Amplitude = 10 * db2lin x Amplitude /\
  db2lin x Power = db2lin x Amplitude ^ 2.
Proof.
  intro x. unfold db2lin. cbn [factor]. split; [|split].
  - replace ((x + 10) / 10) with (1 + x / 10) by field. rewrite Rpower_plus, Rpower_1 by lra. reflexivity.
  - replace ((x + 20) / 20) with (1 + x / 20) by field. rewrite Rpower_plus, Rpower_1 by lra. reflexivity.
  - replace (x / 10) with (x / 20 + x / 20) by field. rewrite Rpower_plus. ring.
Qed.
Print Assumptions C35_power_and_amplitude.

(** Conversion preserves the order. *)
Theorem C35_monotone : forall c u v, 0 < u -> 0 < v -> (u < v <-> lin2db u c < lin2db v c).
Proof.
  intros c u v Hu Hv. pose proof ln10_pos as L. pose proof (factor_pos c) as F. unfold lin2db.
  assert (E : forall w, factor c * (ln w / ln 10) = factor c / ln 10 * ln w) by (intro; field; lra). rewrite !E.
  assert (K : 0 < factor c / ln 10) by (apply Rdiv_lt_0_compat; lra). split; intro H.
  - apply Rmult_lt_compat_l; [exact K|]. apply ln_increasing; lra.
  - apply Rmult_lt_reg_l in H; [|exact K]. apply ln_lt_inv; assumption.
Qed.
Print Assumptions C35_monotone.

(** *** Scalars *)

(** Decibel and linear value of a logarithmic number describe the same quantity. *)
Definition consistent (x : log) : Prop := 0 < l_lin x /\ l_db x = lin2db (l_lin x) (l_conv x).

(** Creation: from decibel always possible, from linear values exactly if positive. *)
Theorem C35_creation : forall v c,
  (exists x, make_log v Db c = Ok x /\ l_db x = v /\ l_lin x = db2lin v c /\ l_conv x = c /\ consistent x) /\
  (0 < v -> exists x, make_log v Lin c = Ok x /\ l_lin x = v /\ l_conv x = c /\ consistent x) /\
  (v <= 0 -> make_log v Lin c = Raise ValueError).
Proof.
  intros v c. destruct (C35_conversion_round_trip c) as [R1 R2]. destruct (R1 v) as [P E]. unfold make_log. split; [|split].
  - destruct (Rle_dec (db2lin v c) 0); [lra|]. eexists. do 4 (split; [reflexivity|]). split; [exact P|]. symmetry. exact E.
  - intro H. destruct (Rle_dec v 0); [lra|]. eexists. do 3 (split; [reflexivity|]). split; [exact H|reflexivity].
  - intro H. destruct (Rle_dec v 0); [reflexivity|lra].
Qed.
Print Assumptions C35_creation.

(** Sums and differences act on the linear values; results that cannot be expressed raise. *)
Theorem C35_sums : forall x y, consistent x -> consistent y ->
  (exists z, add x y = Ok z /\ l_lin z = l_lin x + l_lin y /\ l_conv z = l_conv x /\ consistent z) /\
  (l_lin y < l_lin x -> exists z, sub x y = Ok z /\ l_lin z = l_lin x - l_lin y /\ l_conv z = l_conv x /\ consistent z) /\
  (l_lin x <= l_lin y -> sub x y = Raise ValueError).
Proof.
  intros x y [Px _] [Py _]. split; [|split].
  - apply C35_creation. lra.
  - intro H. apply C35_creation. lra.
  - intro H. apply C35_creation. lra.
Qed.
Print Assumptions C35_sums.

(** Products and quotients act on the linear values, hence add and subtract decibel values if
    both numbers are of the same kind. *)
Theorem C35_products : forall x y, consistent x -> consistent y ->
  (exists z, mul x y = Ok z /\ l_lin z = l_lin x * l_lin y /\ consistent z /\
     (l_conv x = l_conv y -> l_db z = l_db x + l_db y)) /\
  (exists z, div x y = Ok z /\ l_lin z = l_lin x / l_lin y /\ consistent z /\
     (l_conv x = l_conv y -> l_db z = l_db x - l_db y)).
Proof.
  intros x y [Px Dx] [Py Dy]. pose proof ln10_pos as L. split.
  - assert (P : 0 < l_lin x * l_lin y) by (apply Rmult_lt_0_compat; assumption).
    destruct (proj1 (proj2 (C35_creation (l_lin x * l_lin y) (l_conv x))) P) as [z [E [E1 [E2 Cz]]]].
    exists z. split; [exact E|]. split; [exact E1|]. split; [exact Cz|]. intro HC. destruct Cz as [_ ->].
    rewrite E1, E2, Dx, Dy, <- HC. unfold lin2db. rewrite ln_mult by assumption. field. lra.
  - assert (P : 0 < l_lin x / l_lin y) by (apply Rdiv_lt_0_compat; assumption).
    destruct (proj1 (proj2 (C35_creation (l_lin x / l_lin y) (l_conv x))) P) as [z [E [E1 [E2 Cz]]]].
    exists z. split; [exact E|]. split; [exact E1|]. split; [exact Cz|]. intro HC. destruct Cz as [_ ->].
    rewrite E1, E2, Dx, Dy, <- HC. unfold lin2db. unfold Rdiv at 2. rewrite ln_mult by (try assumption; apply Rinv_0_lt_compat; assumption). rewrite ln_Rinv by assumption. field. lra.
Qed.
Print Assumptions C35_products.
Example C35_products_used : exists x y, make_log 3 Db Power = Ok x /\ make_log 2 Lin Power = Ok y /\ consistent x /\ consistent y.
Proof.
  destruct (C35_creation 3 Power) as [[x [E [_ [_ [_ Cx]]]]] _].
  destruct (proj1 (proj2 (C35_creation 2 Power)) ltac:(lra)) as [y [E' [_ [_ Cy]]]]. exists x, y. auto.
Qed.

(** Pickling returns the same number. *)
Theorem C35_pickling : forall x, consistent x -> pickle x = Ok x.
Proof.
  intros [lin db c] [P _]. unfold pickle, from_tuple. cbn in *. destruct (Rle_dec lin 0); [lra|reflexivity].
Qed.
Print Assumptions C35_pickling.

(** *** Sequences *)

(** Every element reads back as a consistent number with the given linear value. *)
Definition faithful (s : seqn) : Prop := forall i x, nth_error (s_lin s) i = Some x -> 0 < x ->
  exists y, get s i = Ok y /\ l_lin y = x /\ l_conv y = s_conv s /\ consistent y.

Lemma faithful_iff s : length (s_lin s) = length (s_db s) ->
  (faithful s <-> forall i x, nth_error (s_lin s) i = Some x -> 0 < x -> nth_error (s_db s) i = Some (lin2db x (s_conv s))).
Proof.
  intro L. split.
  - intros H i x Hi Hx. destruct (H i x Hi Hx) as [y [G [E1 [E2 [P D]]]]]. unfold get in G. rewrite Hi in G.
    destruct (nth_error (s_db s) i) as [d|]; [|discriminate]. unfold from_tuple in G. destruct (Rle_dec x 0); [lra|].
    injection G as <-. cbn in *. rewrite D. reflexivity.
  - intros H i x Hi Hx. unfold get. rewrite Hi, (H i x Hi Hx). unfold from_tuple. destruct (Rle_dec x 0); [lra|].
    eexists. do 3 (split; [reflexivity|]). split; [exact Hx|reflexivity].
Qed.
Lemma finalize_faithful lin c : faithful (finalize lin c).
Proof.
  apply faithful_iff; [cbn; rewrite map_length; reflexivity|]. intros i x Hi _. cbn in *. rewrite nth_error_map', Hi. reflexivity.
Qed.
Lemma set_nth_error l : forall i x j, nth_error (set_nth l i x) j
  = if ((j =? i) && (i <? length l))%nat then Some x else nth_error l j.
Proof.
  induction l as [|y l IH]; intros i x j.
  - cbn. rewrite andb_comm. destruct i; reflexivity.
  - destruct i as [|i], j as [|j]; cbn [set_nth nth_error Nat.eqb length andb]; try reflexivity. apply IH.
Qed.
Lemma set_nth_len l : forall i x, length (set_nth l i x) = length l.
Proof. induction l as [|y l IH]; intros [|i] x; cbn; auto. Qed.

(** Sequences of powers are faithful after creation, from linear or decibel values. *)
Theorem C57_power_sequences : forall values t, faithful (make_seq values t Power).
Proof. intros values t. apply finalize_faithful. Qed.
Print Assumptions C57_power_sequences.
Theorem C57_power_sequence_decibels : forall values i v, nth_error values i = Some v ->
  exists y, get (make_seq values Db Power) i = Ok y /\ l_db y = v.
Proof.
  intros values i v H. unfold get, make_seq. cbn [s_lin s_db finalize s_conv]. rewrite !nth_error_map', H. cbn [option_map].
  destruct (C35_conversion_round_trip Power) as [R1 _]. destruct (R1 v) as [P E].
  unfold from_tuple. destruct (Rle_dec (db2lin v Power) 0); [lra|]. eexists. split; [reflexivity|]. cbn [l_db]. exact E.
Qed.
Print Assumptions C57_power_sequence_decibels.

(** Sequences of amplitudes are not: their elements report half of their decibel value. *)
Theorem C57_amplitude_sequences_report_half : forall values i v, nth_error values i = Some v ->
  exists y, get (make_seq values Db Amplitude) i = Ok y /\ l_lin y = db2lin v Amplitude /\ l_conv y = Amplitude /\
    l_db y = v / 2.
Proof.
  intros values i v H. unfold get, make_seq. cbn [s_lin s_db finalize s_conv]. rewrite !nth_error_map', H. cbn [option_map].
  pose proof (db2lin_pos v Amplitude) as P.
  unfold from_tuple. destruct (Rle_dec (db2lin v Amplitude) 0); [lra|]. eexists. do 3 (split; [reflexivity|]). cbn [l_db].
  unfold lin2db, db2lin, Rpower. rewrite ln_exp. cbn [factor]. field. pose proof ln10_pos. lra.
Qed.
Print Assumptions C57_amplitude_sequences_report_half.
Theorem C57_amplitude_sequences_refuted : ~ forall values t, faithful (make_seq values t Amplitude).
Proof.
  intro H. specialize (H [20] Db). pose proof (db2lin_pos 20 Amplitude) as P.
  destruct (H 0%nat _ eq_refl P) as [y [G [E1 [_ [_ D]]]]].
  destruct (C57_amplitude_sequences_report_half [20] 0 20 eq_refl) as [y' [G' [E1' [E2' D']]]].
  rewrite G in G'. injection G' as <-. rewrite E1, E2' in D.
  rewrite (proj2 (proj1 (C35_conversion_round_trip Amplitude) 20)) in D. lra.
Qed.
Print Assumptions C57_amplitude_sequences_refuted.

(** Slices and products with numbers are faithful, whatever the sequence they come from; they keep its kind of quantity and hold the
    selected and scaled values. *)
Theorem C57_derived_sequences : forall s a b k,
  (faithful (slice_seq a b s) /\ s_conv (slice_seq a b s) = s_conv s /\ s_lin (slice_seq a b s) = firstn (b - a) (skipn a (s_lin s))) /\
  (faithful (scaled k s) /\ s_conv (scaled k s) = s_conv s /\ s_lin (scaled k s) = map (fun v => v * k) (s_lin s)).
Proof. intros. split; (split; [apply finalize_faithful|split; reflexivity]). Qed.
Print Assumptions C57_derived_sequences.

(** Assigning elements keeps a sequence faithful as long as logarithmic numbers of its own kind
    are assigned; the element reads back and all others stay. *)
Definition fits (s : seqn) (v : item) : Prop :=
  match v with ItemLog x => consistent x /\ l_conv x = s_conv s | ItemNumber _ => True end.
Theorem C57_assignment : forall s i v, length (s_lin s) = length (s_db s) -> faithful s -> fits s v ->
  (i < length (s_lin s))%nat ->
  exists s', set_item s i v = Ok s' /\ length (s_lin s') = length (s_db s') /\ faithful s' /\ s_conv s' = s_conv s /\
    nth_error (s_lin s') i = Some (match v with ItemLog x => l_lin x | ItemNumber x => x end) /\
    (forall j, j <> i -> get s' j = get s j).
Proof.
  intros s i v L HF Hv Hi. unfold set_item. apply Nat.ltb_lt in Hi. rewrite Hi. apply Nat.ltb_lt in Hi.
  pose proof (proj1 (faithful_iff s L) HF) as F.
  assert (G : forall x d, 0 < x -> True -> (0 < x -> d = lin2db x (s_conv s)) ->
    let s' := mkSeq (set_nth (s_lin s) i x) (set_nth (s_db s) i d) (s_conv s) in
    length (s_lin s') = length (s_db s') /\ faithful s' /\ s_conv s' = s_conv s /\
    nth_error (s_lin s') i = Some x /\ forall j, j <> i -> get s' j = get s j).
  { intros x d _ _ Hd s'.
    assert (L' : length (s_lin s') = length (s_db s')) by (unfold s'; cbn; rewrite !set_nth_len; exact L).
    split; [exact L'|]. split; [|split; [reflexivity|split]].
    - apply faithful_iff; [exact L'|]. intros j y Hj Hy. unfold s' in *. cbn [s_lin s_db s_conv] in *. rewrite set_nth_error in Hj |- *.
      rewrite <- L. destruct ((j =? i)%nat && (i <? length (s_lin s))%nat); [injection Hj as ->; f_equal; apply Hd, Hy|]. apply F; assumption.
    - unfold s'. cbn [s_lin]. rewrite set_nth_error, Nat.eqb_refl. apply Nat.ltb_lt in Hi. rewrite Hi. reflexivity.
    - intros j Hj. unfold get, s'. cbn [s_lin s_db s_conv]. rewrite !set_nth_error. destruct (Nat.eqb_spec j i); [contradiction|]. reflexivity. }
  destruct v as [x|x].
  - destruct Hv as [[P D] HC]. eexists. split; [reflexivity|]. apply G; auto. intros _. rewrite D, HC. reflexivity.
  - eexists. split; [reflexivity|].
    destruct (Rlt_dec 0 x) as [P|P]; [apply G; auto|].
    (* a number that is not positive can be stored but not read *)
    set (s' := mkSeq _ _ _). assert (L' : length (s_lin s') = length (s_db s')) by (unfold s'; cbn; rewrite !set_nth_len; exact L).
    split; [exact L'|]. split; [|split; [reflexivity|split]].
    + apply faithful_iff; [exact L'|]. intros j y Hj Hy. unfold s' in *. cbn [s_lin s_db s_conv] in *. rewrite set_nth_error in Hj |- *.
      rewrite <- L. destruct ((j =? i)%nat && (i <? length (s_lin s))%nat); [injection Hj as ->; reflexivity|]. apply F; assumption.
    + unfold s'. cbn [s_lin]. rewrite set_nth_error, Nat.eqb_refl. apply Nat.ltb_lt in Hi. rewrite Hi. reflexivity.
    + intros j Hj. unfold get, s'. cbn [s_lin s_db s_conv]. rewrite !set_nth_error. destruct (Nat.eqb_spec j i); [contradiction|]. reflexivity.
Qed.
Print Assumptions C57_assignment.
Example C57_assignment_used : faithful (make_seq [3; 7] Db Power) /\ fits (make_seq [3; 7] Db Power) (ItemNumber 5).
Proof. split; [apply C57_power_sequences|exact I]. Qed.

(** A number that is not positive can be assigned, but not read. *)
Theorem C57_not_positive_unreadable : forall s i x s', length (s_lin s) = length (s_db s) ->
  set_item s i (ItemNumber x) = Ok s' -> x <= 0 -> get s' i = Raise ValueError.
Proof.
  intros s i x s' L H Hx. unfold set_item in H. destruct (i <? length (s_lin s))%nat eqn:E; [|discriminate].
  injection H as <-. unfold get. cbn [s_lin s_db s_conv]. rewrite !set_nth_error, <- L, Nat.eqb_refl, E. cbn [andb].
  unfold from_tuple. destruct (Rle_dec x 0); [reflexivity|lra].
Qed.
Print Assumptions C57_not_positive_unreadable.

(** In-place arithmetic leaves the decibel values behind. *)
Theorem C57_in_place_arithmetic_refuted : ~ forall s k, faithful s -> 0 < k -> faithful (scale_in_place k s).
Proof.
  intro H. specialize (H (make_seq [0] Db Power) 10 (C57_power_sequences [0] Db) ltac:(lra)).
  assert (L : length (s_lin (scale_in_place 10 (make_seq [0] Db Power))) = length (s_db (scale_in_place 10 (make_seq [0] Db Power)))) by reflexivity.
  pose proof (proj1 (faithful_iff _ L) H) as F. pose proof (db2lin_pos 0 Power) as P.
  specialize (F 0%nat (db2lin 0 Power * 10) eq_refl ltac:(lra)). cbn [scale_in_place make_seq finalize s_db s_lin map nth_error s_conv] in F.
  assert (Inj : forall a b : R, Some a = Some b -> a = b) by (intros a b E; injection E; auto). apply Inj in F.
  destruct (C35_conversion_round_trip Power) as [R1 _]. rewrite (proj2 (R1 0)) in F.
  replace (db2lin 0 Power * 10) with (db2lin (0 + 10) Power) in F by (rewrite (proj1 (C35_power_and_amplitude 0)); ring).
  rewrite (proj2 (R1 (0 + 10))) in F. lra.
Qed.
Print Assumptions C57_in_place_arithmetic_refuted.

(** Pickling a faithful sequence of powers returns a sequence that reads the same. *)
Theorem C57_pickling_powers : forall s i, length (s_lin s) = length (s_db s) -> faithful s -> s_conv s = Power ->
  get (pickle_seq s) i = get s i.
Proof.
  intros s i L HF HC. pose proof (proj1 (faithful_iff s L) HF) as F. unfold get, pickle_seq, make_seq.
  cbn [s_lin s_db finalize s_conv]. rewrite nth_error_map', HC in *.
  destruct (nth_error (s_lin s) i) as [x|] eqn:E; [|reflexivity]. cbn [option_map].
  destruct (nth_error (s_db s) i) as [d|] eqn:Ed.
  - unfold from_tuple. destruct (Rle_dec x 0); [reflexivity|]. specialize (F i x E ltac:(lra)). rewrite Ed in F. injection F as ->. reflexivity.
  - exfalso. apply nth_error_None in Ed. assert (i < length (s_lin s))%nat by (apply nth_error_Some; congruence). lia.
Qed.
Print Assumptions C57_pickling_powers.
