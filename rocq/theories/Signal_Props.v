(** C39 - C42: sparse and dense signals. *)
From Coq Require Import List Arith Bool Lia ZArith.
From Verif Require Import Base BaseLemmas Signal_Model Signal_Spec Signal_Proofs SignalOps_Proofs.
Import ListNotations.

(** Integers as samples in the examples. *)
Lemma Zlaws : laws 0%Z Z.add (Z.eqb 0).
Proof. constructor; intros; [lia|lia|]. rewrite Z.eqb_eq. split; auto. Qed.
Notation Zto_dense := (to_dense Z 0%Z).
Notation Zfrom_dense := (from_dense Z 0%Z Z.add (Z.eqb 0)).
Notation Zsuper := (sp_superimpose Z 0%Z Z.add (Z.eqb 0)).
Notation Zdsuper := (dn_superimpose Z 0%Z Z.add).

(** Two blocks of two streams at instants 1-2 and 4. *)
Definition exs : list (block Z) := [mkB 1 2 [[1; 2]; [3; 4]]%Z; mkB 4 2 [[5; 6]]%Z].
(** Another layout: instants 0-1 and 3. *)
Definition exa : list (block Z) := [mkB 0 2 [[10; 20]; [30; 40]]%Z; mkB 3 2 [[50; 60]]%Z].
Lemma exs_wf : well_formed 2 (Sparse exs).
Proof. split; cbn; [repeat constructor|lia]. Qed.
Lemma exa_wf : well_formed 2 (Sparse exa).
Proof. split; cbn; [repeat constructor|lia]. Qed.

(** * C39 *)

(** The dense form of a sparse signal has the stored column at every stored instant and
    silence in between. *)
Theorem C39_dense_form_of_a_sparse_signal : forall A (zero : A) ns s,
  well_formed ns (Sparse s) -> s <> [] ->
  exists d, to_dense A zero s = Ok d /\ d_ns d = ns /\ length (d_cols d) = num_samples (Sparse s) /\
    forall t, t < num_samples (Sparse s) -> nth_error (d_cols d) t = Some (value zero ns (Sparse s) t).
Proof. intros A zero ns s. apply to_dense_spec. Qed.
Print Assumptions C39_dense_form_of_a_sparse_signal.
Example C39_dense_form_met : Zto_dense exs = Ok (mkD 2 [[0; 0]; [1; 2]; [3; 4]; [0; 0]; [5; 6]]%Z).
Proof. reflexivity. Qed.

(** The sparse form of a matrix: every column whose entries do not sum to zero is kept at its
    place; the others become silence; the blocks are ordered and do not overlap. *)
Theorem C39_sparse_form_of_a_matrix : forall A (zero : A) add is_zero ns cols,
  Forall (fun c => length c = ns) cols -> cols <> [] ->
  let s := from_dense A zero add is_zero ns cols 0 in
  well_formed ns (Sparse s) /\
  forall t, value zero ns (Sparse s) t =
    match nth_error cols t with
    | Some c => if is_zero (fold_left add c zero) then repeat zero ns else c
    | None => repeat zero ns
    end.
Proof.
  intros A zero add is_zero ns cols Hl Hne s. split; [exact (from_dense_wf A zero add is_zero ns cols 0 Hl)|].
  intros t. unfold value, s. cbn [blocks]. rewrite from_dense_at by auto. cbn [Nat.leb]. rewrite Nat.sub_0_r. unfold colsum.
  destruct (nth_error cols t) as [c|]; [|auto]. destruct (is_zero (fold_left add c zero)); auto.
Qed.
Print Assumptions C39_sparse_form_of_a_matrix.

(** Back and forth: only silent columns at the end are dropped, provided no column cancels. *)
Theorem C39_matrix_round_trip : forall A (zero : A) add is_zero ns cols,
  Forall (fun c => length c = ns) cols -> Exists (fun c => c <> repeat zero ns) cols ->
  no_cancelling zero add is_zero (Dense (mkD ns cols)) ->
  exists d k, to_dense A zero (from_dense A zero add is_zero ns cols 0) = Ok d /\ d_ns d = ns /\
    d_cols d = firstn k cols /\ Forall (fun c => c = repeat zero ns) (skipn k cols).
Proof. intros. now apply roundtrip_spec. Qed.
Print Assumptions C39_matrix_round_trip.
Example C39_round_trip_met :
  let cols := [[0; 0]; [1; 2]; [0; 0]; [3; 4]; [0; 0]]%Z in
  Forall (fun c => length c = 2) cols /\ Exists (fun c => c <> repeat 0%Z 2) cols /\
  no_cancelling 0%Z Z.add (Z.eqb 0) (Dense (mkD 2 cols)) /\
  Zfrom_dense 2 cols 0 = [mkB 1 2 [[1; 2]]%Z; mkB 3 2 [[3; 4]]%Z].
Proof.
  cbn zeta. split; [repeat constructor|]. split; [apply Exists_cons_tl, Exists_cons_hd; discriminate|]. split; [|reflexivity].
  intros t c H Hz. cbn in H. unfold at_block in H. cbn in H. destruct t as [|[|[|[|[|t]]]]]; cbn in H;
    try (injection H as <-; first [reflexivity|discriminate Hz]). destruct t; discriminate.
Qed.

(** Without the provision: the column (1, -1) is lost. *)
Theorem C39_round_trip_of_cancelling_columns_refuted :
  ~ (forall ns cols d, Forall (fun c : list Z => length c = ns) cols -> Zto_dense (Zfrom_dense ns cols 0) = Ok d ->
       forall t, t < length (d_cols d) -> nth_error (d_cols d) t = nth_error cols t).
Proof.
  intros H. specialize (H 2 [[1; -1]; [1; 1]]%Z _ ltac:(repeat constructor) eq_refl 0). cbn in H. specialize (H ltac:(lia)). discriminate.
Qed.
Print Assumptions C39_round_trip_of_cancelling_columns_refuted.

(** A silent matrix loses its number of streams. *)
Theorem C39_silence_keeps_its_streams_refuted :
  ~ (forall ns cols, Forall (fun c : list Z => length c = ns) cols -> num_streams (Sparse (Zfrom_dense ns cols 0)) = ns).
Proof. intros H. specialize (H 2 [[0; 0]]%Z ltac:(repeat constructor)). discriminate. Qed.
Print Assumptions C39_silence_keeps_its_streams_refuted.

(** * C40 *)

(** Superimposing onto a sparse signal adds the other signal, delayed by [d], at every
    instant, for all block layouts and all (also negative) delays. *)
Theorem C40_sparse_superposition_adds : forall A (zero : A) add is_zero, laws zero add is_zero -> forall ns s added d,
  0 < ns -> well_formed ns (Sparse s) -> s <> [] -> well_formed ns added -> num_streams added = ns ->
  exists r after, sp_superimpose A zero add is_zero s added d None = Ok (r, after) /\
    well_formed ns (Sparse r) /\ num_streams (Sparse r) = ns /\
    (forall t, value zero ns (Sparse r) t =
       map2 add (value zero ns (Sparse s) t) (valueZ zero ns added (Z.of_nat t - d))) /\
    ((d <= 0)%Z \/ (exists x, added = Dense x) -> after = added).
Proof. intros A zero add is_zero L ns s added d. now apply superimpose_spec. Qed.
Print Assumptions C40_sparse_superposition_adds.
Example C40_sparse_met : exists r, Zsuper exs (Sparse exa) 2%Z None = Ok r /\
  Zto_dense (fst r) = Ok (mkD 2 [[0; 0]; [1; 2]; [13; 24]; [30; 40]; [5; 6]; [50; 60]]%Z).
Proof. eexists; split; reflexivity. Qed.

(** The same for a dense signal if the added signal does not start later. *)
Theorem C40_dense_superposition_adds : forall A (zero : A) add is_zero, laws zero add is_zero -> forall ns self added d,
  0 < ns -> well_formed ns (Dense self) -> d_ns self = ns -> d_cols self <> [] ->
  well_formed ns added -> num_streams added = ns -> (d <= 0)%Z ->
  exists r, dn_superimpose A zero add self added d = Ok (Dense r) /\ d_ns r = ns /\ well_formed ns (Dense r) /\
    forall t, value zero ns (Dense r) t =
      map2 add (value zero ns (Dense self) t) (valueZ zero ns added (Z.of_nat t - d)).
Proof. intros A zero add is_zero L ns self added d. intros. eapply dn_superimpose_spec; eauto. Qed.
Print Assumptions C40_dense_superposition_adds.
Example C40_dense_met : Zdsuper (mkD 2 [[1; 1]; [1; 1]; [1; 1]]%Z) (Sparse exa) (-1)%Z = Ok (Dense (mkD 2 [[31; 41]; [1; 1]; [51; 61]]%Z)).
Proof. reflexivity. Qed.

(** If the added signal starts later, a dense signal drops its end instead of shifting it. *)
Theorem C40_late_signals_onto_dense_refuted :
  ~ (forall ns self added d r, (0 < d)%Z -> well_formed ns (Dense self) -> d_ns self = ns -> well_formed ns added -> num_streams added = ns ->
       Zdsuper self added d = Ok r ->
       forall t, value 0%Z ns r t = map2 Z.add (value 0%Z ns (Dense self) t) (valueZ 0%Z ns added (Z.of_nat t - d))).
Proof.
  intros H. assert (W : forall c1 c2 : Z, well_formed 1 (Dense (mkD 1 [[c1]; [c2]]))) by (intros; split; cbn; [repeat constructor|lia]).
  specialize (H 1 (mkD 1 [[1]; [1]]%Z) (Dense (mkD 1 [[1]; [2]]%Z)) 1%Z _ ltac:(lia) (W 1%Z 1%Z) eq_refl (W 1%Z 2%Z) eq_refl eq_refl 0). discriminate H.
Qed.
Print Assumptions C40_late_signals_onto_dense_refuted.

(** Superimposing a sparse signal with a positive delay moves its blocks: doing the same again
    places it somewhere else. *)
Theorem C40_added_signal_is_unchanged_refuted :
  ~ (forall ns s added d r after, well_formed ns (Sparse s) -> well_formed ns added ->
       Zsuper s added d None = Ok (r, after) -> after = added).
Proof.
  intros H. specialize (H 2 exs (Sparse exa) 2%Z _ _ exs_wf exa_wf eq_refl). discriminate.
Qed.
Print Assumptions C40_added_signal_is_unchanged_refuted.

(** Selecting streams: the selection is only checked, the added streams land on the first
    ones in their own order. *)
Theorem C40_stream_selection_is_honoured_refuted :
  ~ (forall ns s added streams r after, well_formed ns (Sparse s) -> well_formed (length streams) added -> num_streams added = length streams ->
       Zsuper s added 0 (Some streams) = Ok (r, after) ->
       forall t i, i < length streams ->
         nth (nth i streams 0) (value 0%Z ns (Sparse r) t) 0%Z =
         (nth (nth i streams 0%nat) (value 0%Z ns (Sparse s) t) 0 + nth i (value 0%Z ns added t) 0)%Z).
Proof.
  intros H. specialize (H 2 exs (Sparse exa) [1; 0] _ _ exs_wf exa_wf eq_refl eq_refl 0 0 ltac:(cbn; lia)). discriminate H.
Qed.
Print Assumptions C40_stream_selection_is_honoured_refuted.

(** * C41 *)

(** Appended samples follow directly behind the existing ones. *)
Theorem C41_samples_appended_to_sparse : forall A (zero : A) ns s v,
  s <> [] -> well_formed ns (Sparse s) -> well_formed ns v -> num_streams v = ns ->
  exists r, sp_append_samples A s v = Ok r /\ well_formed ns (Sparse r) /\ num_streams (Sparse r) = ns /\
    num_samples (Sparse r) = num_samples (Sparse s) + num_samples v /\
    forall t, value zero ns (Sparse r) t =
      if t <? num_samples (Sparse s) then value zero ns (Sparse s) t else value zero ns v (t - num_samples (Sparse s)).
Proof.
  intros A zero ns s v Hne H1 H2 H3. destruct (sp_append_samples_spec A zero ns s v Hne H1 H2 H3) as (r & E & Hw & Hn & Hl & Hv).
  exists r. split; [auto|]. split; [auto|]. split; [auto|]. split; [|auto]. cbn [num_samples]. rewrite Hl.
  destruct (blocks v) eqn:Eb; [|auto]. destruct v as [d|l]; [discriminate|]. cbn in Eb. subst l. reflexivity.
Qed.
Print Assumptions C41_samples_appended_to_sparse.
Example C41_sparse_met : exists r, sp_append_samples Z exs (Sparse exa) = Ok r /\
  Zto_dense r = Ok (mkD 2 [[0; 0]; [1; 2]; [3; 4]; [0; 0]; [5; 6]; [10; 20]; [30; 40]; [0; 0]; [50; 60]]%Z).
Proof. eexists; split; reflexivity. Qed.

Theorem C41_samples_appended_to_dense : forall A (zero : A) ns x v,
  well_formed ns (Dense x) -> d_ns x = ns -> well_formed ns v -> blocks v <> [] ->
  exists r, dn_append_samples A zero x v = Ok r /\ d_ns r = ns /\ well_formed ns (Dense r) /\
    length (d_cols r) = length (d_cols x) + num_samples v /\
    forall t, value zero ns (Dense r) t =
      if t <? length (d_cols x) then value zero ns (Dense x) t else value zero ns v (t - length (d_cols x)).
Proof.
  intros A zero ns x v H1 H2 H3 H4. destruct (dn_append_samples_spec A zero ns x v H1 H2 H3 H4) as (r & E & Hn & Hl & Hw & Hv).
  exists r. auto.
Qed.
Print Assumptions C41_samples_appended_to_dense.
Example C41_dense_met : dn_append_samples Z 0%Z (mkD 2 [[7; 8]]%Z) (Sparse exa) = Ok (mkD 2 [[7; 8]; [10; 20]; [30; 40]; [0; 0]; [50; 60]]%Z).
Proof. reflexivity. Qed.

(** A sparse signal rejects samples with another number of streams ... *)
Theorem C41_sparse_rejects_other_stream_counts : forall A (s : list (block A)) v,
  num_streams (Sparse s) <> num_streams v -> sp_append_samples A s v = Raise ValueError.
Proof.
  intros A s v H. unfold sp_append_samples. cbn [num_streams] in H. destruct (Nat.eqb_spec (sp_ns s) (num_streams v)); [congruence|auto].
Qed.
Print Assumptions C41_sparse_rejects_other_stream_counts.
(** ... but a dense one repeats a single stream over all of its own. *)
Theorem C41_dense_rejects_other_stream_counts_refuted :
  ~ (forall x v, d_ns x <> num_streams v -> exists e, dn_append_samples Z 0%Z x v = Raise e).
Proof.
  intros H. destruct (H (mkD 2 [[1; 2]]%Z) (Dense (mkD 1 [[3]]%Z)) ltac:(cbn; lia)) as [e He]. discriminate.
Qed.
Print Assumptions C41_dense_rejects_other_stream_counts_refuted.

(** Streams appended to a dense signal that is at least as long. *)
Theorem C41_streams_appended_to_dense : forall A (zero : A) ns nv x v,
  well_formed ns (Dense x) -> d_ns x = ns -> well_formed nv v -> blocks v <> [] -> num_samples v <= length (d_cols x) ->
  exists r, dn_append_streams A zero x v = Ok r /\ d_ns r = ns + nv /\ length (d_cols r) = length (d_cols x) /\
    forall t, t < length (d_cols x) -> nth_error (d_cols r) t = Some (value zero ns (Dense x) t ++ value zero nv v t).
Proof. intros A zero ns nv x v. apply dn_append_streams_spec. Qed.
Print Assumptions C41_streams_appended_to_dense.
Example C41_streams_met : dn_append_streams Z 0%Z (mkD 1 [[7]; [8]; [9]; [6]]%Z) (Sparse exa) =
  Ok (mkD 3 [[7; 10; 20]; [8; 30; 40]; [9; 0; 0]; [6; 50; 60]]%Z).
Proof. reflexivity. Qed.

(** Streams appended to a sparse signal: whatever is returned is right ... *)
Theorem C41_streams_appended_to_sparse : forall A (zero : A) add is_zero ns nv s v r,
  s <> [] -> well_formed ns (Sparse s) -> well_formed nv v -> num_streams v = nv ->
  Forall (fun b => k_cols b <> []) (blocks v) -> no_cancelling zero add is_zero v ->
  sp_append_streams A zero add is_zero s v = Ok r ->
  well_formed (ns + nv) (Sparse r) /\
  forall t, value zero (ns + nv) (Sparse r) t = value zero ns (Sparse s) t ++ value zero nv v t.
Proof. intros A zero add is_zero ns nv s v r. apply sp_append_streams_spec. Qed.
Print Assumptions C41_streams_appended_to_sparse.
(** ... and something is returned if every stretch of activity ends with both signals active. *)
Theorem C41_sparse_streams_are_accepted : forall A (zero : A) add is_zero ns nv s v,
  s <> [] -> well_formed ns (Sparse s) -> well_formed nv v -> num_streams v = nv ->
  Forall (fun b => k_cols b <> []) s -> Forall (fun b => k_cols b <> []) (blocks v) ->
  (forall t,
     let active t := at_blocks s t <> None \/ (exists c, at_blocks (blocks v) t = Some c /\ is_zero (fold_left add c zero) = false) in
     active t -> ~ active (S t) -> at_blocks s t <> None /\ at_blocks (blocks v) t <> None) ->
  exists r, sp_append_streams A zero add is_zero s v = Ok r.
Proof. intros A zero add is_zero ns nv s v. apply sp_append_streams_live. Qed.
Print Assumptions C41_sparse_streams_are_accepted.
Example C41_sparse_streams_met : exists r,
  sp_append_streams Z 0%Z Z.add (Z.eqb 0) exs (Sparse [mkB 0 1 [[7]; [8]; [9]]%Z; mkB 4 1 [[1]]%Z]) = Ok r /\
  Zto_dense r = Ok (mkD 3 [[0; 0; 7]; [1; 2; 8]; [3; 4; 9]; [0; 0; 0]; [5; 6; 1]]%Z).
Proof. eexists; split; reflexivity. Qed.
(** In particular streams that are active at different times are refused. *)
Theorem C41_sparse_streams_always_accepted_refuted :
  ~ (forall ns nv s v, s <> [] -> well_formed ns (Sparse s) -> well_formed nv v -> num_streams v = nv ->
       exists r, sp_append_streams Z 0%Z Z.add (Z.eqb 0) s v = Ok r).
Proof.
  intros H. destruct (H 2 2 exs (Sparse exa) ltac:(discriminate) exs_wf exa_wf eq_refl) as [r Hr]. discriminate Hr.
Qed.
Print Assumptions C41_sparse_streams_always_accepted_refuted.

(** * C42 *)

(** Slicing [start:stop:step] with non-negative bounds: the t-th instant of the result is the
    instant start + t * step of the signal, silence behind the stop. *)
Theorem C42_slices_select_instants : forall A (zero : A) ns s rows (start stop : option nat) step,
  0 < step -> well_formed ns (Sparse s) ->
  let a := match start with Some x => x | None => 0 end in
  Forall (aligned a step) s ->
  let r := sp_getitem A zero s rows (option_map Z.of_nat start) (option_map Z.of_nat stop) step in
  well_formed (length rows) r /\
  forall t, value zero (length rows) r t =
    if match stop with Some e => a + t * step <? e | None => true end
    then map (fun i => nth i (value zero ns (Sparse s) (a + t * step)) zero) rows
    else repeat zero (length rows).
Proof.
  intros A zero ns s rows start stop step Hs [Hst Ho] a Hal r.
  destruct (getitem_sparse_spec A zero s rows start stop step Hs Ho Hal) as [Hw Hat]. split; [exact Hw|].
  intros t. unfold value at 1. subst r. rewrite Hat. fold a.
  destruct (match stop with Some e => a + t * step <? e | None => true end); [|auto].
  unfold value. cbn [blocks]. destruct (at_blocks s (a + t * step)) as [c|]; [reflexivity|]. cbn [option_map].
  clear. induction rows as [|i rows IH]; [reflexivity|]. cbn [repeat length map]. rewrite <- IH. f_equal.
  symmetry. destruct (nth_in_or_default i (repeat zero ns) zero) as [H|H]; [now apply repeat_spec in H|auto].
Qed.
Print Assumptions C42_slices_select_instants.
(** Unit steps and steps of two need no provision. *)
Theorem C42_small_steps_are_always_aligned : forall A a step (s : list (block A)), step <= 2 -> Forall (aligned a step) s.
Proof. intros A a step s H. apply Forall_forall. intros b _. right. left. exact H. Qed.
Print Assumptions C42_small_steps_are_always_aligned.
Example C42_met : sp_getitem Z 0%Z exs [1] (Some 0%Z) (Some 5%Z) 2 = Sparse [mkB 1 1 [[4]]%Z; mkB 2 1 [[6]]%Z] /\
  sp_getitem Z 0%Z exs [1; 0] (Some 2%Z) None 1 = Sparse [mkB 0 2 [[4; 3]]%Z; mkB 2 2 [[6; 5]]%Z].
Proof. split; reflexivity. Qed.

(** For a step of three a block may be read at the wrong instants ... *)
Theorem C42_all_steps_refuted :
  ~ (forall ns s rows a step, 0 < step -> well_formed ns (Sparse s) ->
       forall t, value 0%Z (length rows) (sp_getitem Z 0%Z s rows (Some (Z.of_nat a)) None step) t =
         map (fun i => nth i (value 0%Z ns (Sparse s) (a + t * step)) 0%Z) rows).
Proof.
  intros H. specialize (H 1 [mkB 1 1 [[1]; [2]; [3]; [4]]%Z] [0] 0 3 ltac:(lia) ltac:(split; cbn; [repeat constructor|lia]) 1). discriminate H.
Qed.
Print Assumptions C42_all_steps_refuted.
(** ... and negative bounds are not counted from the end. *)
Theorem C42_negative_bounds_refuted :
  ~ (forall ns s rows k, well_formed ns (Sparse s) -> 0 < k <= num_samples (Sparse s) ->
       forall t, value 0%Z (length rows) (sp_getitem Z 0%Z s rows (Some (- Z.of_nat k)%Z) None 1) t =
         map (fun i => nth i (value 0%Z ns (Sparse s) (num_samples (Sparse s) - k + t)) 0%Z) rows).
Proof.
  intros H. specialize (H 2 exs [0] 1 exs_wf ltac:(cbn; lia) 0). discriminate H.
Qed.
Print Assumptions C42_negative_bounds_refuted.
