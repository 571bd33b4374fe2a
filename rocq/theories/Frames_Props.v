(** C26, C53, C54: frames of transmissions and receptions. *)
From Coq Require Import List Arith Bool ZArith QArith Qround Lia Lqa.
From Verif Require Import Base BaseLemmas Frames_Model Frames_Proofs.
Import ListNotations.
Open Scope nat_scope.

(** A transmission contains as many whole frames as fit into the requested duration, and
    exactly one if no positive duration is requested. *)
Theorem C26_number_of_frames : forall duration frame_duration : Q, (0 < frame_duration)%Q ->
  let n := num_mimo_frames duration frame_duration in
  ((duration <= 0)%Q -> n = 1%Z) /\
  ((0 < duration)%Q -> (inject_Z n * frame_duration <= duration < inject_Z (n + 1) * frame_duration)%Q /\ (0 <= n)%Z).
Proof.
  intros d f Hf n. unfold n, num_mimo_frames. split; intro Hd.
  - apply Qle_bool_iff in Hd. rewrite Hd.
    assert (E : (f / f == 1)%Q) by (apply Qmult_inv_r; lra). rewrite E. reflexivity.
  - assert (B : Qle_bool d 0 = false).
    { destruct (Qle_bool d 0) eqn:E; [|reflexivity]. apply Qle_bool_iff in E. lra. }
    rewrite B.
    assert (E : (d == d / f * f)%Q) by (field; lra).
    pose proof (Qfloor_le (d / f)) as H1. pose proof (Qlt_floor (d / f)) as H2.
    repeat split.
    + rewrite E at 2. apply Qmult_le_compat_r; lra.
    + rewrite E at 1. apply Qmult_lt_compat_r; assumption.
    + assert (P : (0 <= d / f)%Q) by (apply Qle_shift_div_l; lra).
      pose proof (Qfloor_resp_le _ _ P) as P'. exact P'.
Qed.
Print Assumptions C26_number_of_frames.

(** The bits of the frames of a transmission, put one after another, are the bits drawn from
    the source, each exactly once and in order; [transmission.bits] does not depend on the
    content of the uninitialised array it is copied to. *)
Theorem C26_frames_partition_bits : forall {A} src k modulated (encoded : bits -> list (nat * list A)) count junk,
  let frames := transmit_frames src k modulated encoded count 0 0 0 in
  length frames = count /\
  (forall f, In f frames -> length (x_bits f) = k) /\
  concat_bits junk (map x_bits frames) = map src (seq 0 (count * k)).
Proof.
  intros A src k modulated encoded count junk frames. unfold frames. split; [apply transmit_length|]. split.
  - generalize 0 at 1 as n. generalize 0 at 1 as pos. generalize 0 as off.
    induction count as [|c IH]; intros off pos n f H; [destruct H|]. destruct H as [<-|H].
    + cbn. unfold generate_bits. rewrite map_length, seq_length. reflexivity.
    + eapply IH, H.
  - rewrite concat_bits_spec, transmit_bits. reflexivity.
Qed.
Print Assumptions C26_frames_partition_bits.
Example C26_frames_partition_bits_used :
  map x_bits (transmit_frames Nat.even 3 (fun _ => 4) (fun b => [(0, b)]) 2 0 0 0)
  = [[true; false; true]; [false; true; false]].
Proof. reflexivity. Qed.

(** If every frame modulates to [spf] samples, frame [i] carries bits [i*k ... i*k+k-1] and its
    blocks start [i * spf] samples later than the blocks of the frame itself. *)
Theorem C26_frame_positions : forall {A} src k modulated (encoded : bits -> list (nat * list A)) spf count,
  (forall b, length b = k -> modulated b = spf) -> forall i, i < count ->
  let drawn := map src (seq (i * k) k) in
  nth_error (transmit_frames src k modulated encoded count 0 0 0) i
  = Some (mkTx i drawn (map (fun b => (fst b + i * spf, snd b)) (encoded drawn))).
Proof. intros A src k modulated encoded spf count HM i Hi drawn. exact (transmit_nth src k modulated encoded spf count HM 0 0 0 i Hi). Qed.
Print Assumptions C26_frame_positions.
Example C26_frame_positions_used :
  nth_error (transmit_frames Nat.even 3 (fun _ => 4) (fun b => [(0, b)]) 2 0 0 0) 1
  = Some (mkTx 1 [false; true; false] [(4, [false; true; false])]).
Proof. reflexivity. Qed.

(** Without a synchronization sequence, every block of the received signal is cut into its
    [n / spf] whole frames: put one after another they are the beginning of the block, less
    than one frame is left over at its end, no frame is padded, and frame [j] is reported at
    the offset of the block plus [j * spf]. *)
Theorem C26_default_synchronization : forall {A} (zero : A) spf offset (columns : list A), 0 < spf ->
  let frames := synchronize zero (default_sync spf) spf [(offset, columns)] in
  concat (map snd frames) = firstn (length frames * spf) columns /\
  length frames * spf <= length columns < (length frames + 1) * spf /\
  Forall (fun f => length (snd f) = spf) frames /\
  map fst frames = map (fun j => offset + j * spf) (seq 0 (length frames)).
Proof.
  intros A zero spf offset columns Hs frames.
  assert (L : length frames = length columns / spf).
  { unfold frames, synchronize, default_sync. cbn [map concat]. rewrite app_nil_r, !map_length, seq_length. reflexivity. }
  pose proof (Nat.div_mod_eq (length columns) spf) as D. pose proof (Nat.mod_upper_bound (length columns) spf ltac:(lia)) as M.
  rewrite L. split; [|split; [|split]].
  - unfold frames, synchronize, default_sync. cbn [map concat fst snd]. rewrite app_nil_r, !map_map. cbn [snd].
    apply cut_frames_concat. nia.
  - nia.
  - apply Forall_forall. intros f Hf. unfold frames, synchronize, default_sync in Hf. cbn [map concat fst snd] in Hf.
    rewrite app_nil_r in Hf. apply in_map_iff in Hf. destruct Hf as [s [<- _]]. apply cut_length.
  - unfold frames, synchronize, default_sync. cbn [map concat fst snd]. rewrite app_nil_r, !map_map. reflexivity.
Qed.
Print Assumptions C26_default_synchronization.
Example C26_default_synchronization_used :
  synchronize 0 (default_sync 2) 2 [(10, [1; 2; 3; 4; 5])] = [(10, [1; 2]); (12, [3; 4])].
Proof. reflexivity. Qed.

(** With any synchronization, a frame always has [spf] samples: sample [i] is the sample of
    the block [i] behind the start found, zero exactly where the block has ended. *)
Theorem C26_padding_past_the_end : forall {A} (zero : A) sync spf (blocks : list (nat * list A)) frame,
  In frame (synchronize zero sync spf blocks) ->
  exists offset columns start, In (offset, columns) blocks /\ In start (sync columns) /\
    fst frame = offset + start /\ length (snd frame) = spf /\
    forall i, i < spf ->
      nth_error (snd frame) i = Some (match nth_error columns (start + i) with Some x => x | None => zero end).
Proof.
  intros A zero sync spf blocks frame H. unfold synchronize in H. apply in_concat in H.
  destruct H as [l [Hl Hf]]. apply in_map_iff in Hl. destruct Hl as [[o c] [<- Hb]]. apply in_map_iff in Hf.
  destruct Hf as [s [<- Hs]]. exists o, c, s. cbn [fst snd] in *. repeat split; auto using cut_length.
  intros i Hi. rewrite <- nth_of_error, <- (cut_nth zero spf s c i Hi). apply nth_error_nth'. rewrite cut_length. exact Hi.
Qed.
Print Assumptions C26_padding_past_the_end.
Example C26_padding_past_the_end_used :
  synchronize 0 (fun _ => [1; 4]) 3 [(10, [1; 2; 3; 4; 5])] = [(11, [2; 3; 4]); (14, [5; 0; 0])].
Proof. reflexivity. Qed.

(** Frames are searched in every block separately and in order: the frames of a signal are
    those of its first blocks followed by those of the others. *)
Theorem C26_blocks_independent : forall {A} (zero : A) sync spf (b1 b2 : list (nat * list A)),
  synchronize zero sync spf (b1 ++ b2) = synchronize zero sync spf b1 ++ synchronize zero sync spf b2.
Proof. intros. unfold synchronize. rewrite map_app, concat_app. reflexivity. Qed.
Print Assumptions C26_blocks_independent.

(** Round trip: receiving the transmitted blocks unchanged yields the transmitted frames, in
    order, each at its own position. *)
Theorem C26_round_trip_sparse : forall {A} (zero : A) src k (wave : bits -> list A) spf count,
  0 < spf -> (forall b, length (wave b) = spf) ->
  synchronize zero (default_sync spf) spf
    (signal_blocks (transmit_frames src k (fun b => length (wave b)) (fun b => [(0, wave b)]) count 0 0 0))
  = map (fun i => (i * spf, wave (map src (seq (i * k) k)))) (seq 0 count).
Proof.
  intros A zero src k wave spf count Hs HL.
  assert (G : forall c n, synchronize zero (default_sync spf) spf
    (signal_blocks (transmit_frames src k (fun b => length (wave b)) (fun b => [(0, wave b)]) c n (n * k) (n * spf)))
    = map (fun i => (i * spf, wave (map src (seq (i * k) k)))) (seq n c)).
  { induction c as [|c IH]; intro n; [reflexivity|].
    cbn [transmit_frames seq map]. unfold signal_blocks in *. cbn [map concat x_blocks].
    cbn [app]. change (?b :: ?l) with ([b] ++ l) at 1. rewrite C26_blocks_independent.
    rewrite HL. replace (n * k + k) with (S n * k) by (cbn; lia). replace (n * spf + spf) with (S n * spf) by (cbn; lia).
    rewrite IH. unfold synchronize at 1. cbn [map concat fst snd app]. rewrite app_nil_r, sync_single by assumption.
    cbn [app]. reflexivity. }
  exact (G count 0).
Qed.
Print Assumptions C26_round_trip_sparse.

(** The same if the frames arrive merged into a single block, possibly followed by fewer than
    [spf] further samples, shifted by any offset. *)
Theorem C26_round_trip_dense : forall {A} (zero : A) spf offset (frames : list (list A)) (rest : list A),
  0 < spf -> Forall (fun f => length f = spf) frames -> length rest < spf ->
  synchronize zero (default_sync spf) spf [(offset, concat frames ++ rest)]
  = combine (map (fun i => offset + i * spf) (seq 0 (length frames))) frames.
Proof.
  intros A zero spf offset frames rest Hs HF Hr.
  unfold synchronize, default_sync. cbn [map concat fst snd]. rewrite app_nil_r, map_map.
  assert (L : length (concat frames) = length frames * spf) by (apply length_concat_const, HF).
  assert (D : length (concat frames ++ rest) / spf = length frames).
  { rewrite app_length, L. rewrite Nat.add_comm, Nat.div_add by lia. rewrite Nat.div_small by exact Hr. reflexivity. }
  rewrite D. clear D L.
  assert (G : forall fs pre n, Forall (fun f => length f = spf) fs -> length pre = n * spf ->
    map (fun x => (offset + x * spf, cut_frame zero spf (x * spf) (pre ++ concat fs ++ rest))) (seq n (length fs))
    = combine (map (fun i => offset + i * spf) (seq n (length fs))) fs).
  { induction fs as [|f fs IH]; intros pre n HFs Lp; [reflexivity|].
    apply Forall_cons_iff in HFs. destruct HFs as [Lf HFs]. cbn [length seq map combine concat]. f_equal.
    - f_equal. rewrite cut_inside by (rewrite !app_length; lia). unfold slice.
      replace (n * spf + spf - n * spf) with spf by lia. rewrite <- Lp, skipn_app, skipn_all, Nat.sub_diag.
      cbn [skipn app]. rewrite <- app_assoc, firstn_app, <- Lf, firstn_all, Nat.sub_diag. cbn [firstn]. apply app_nil_r.
    - rewrite <- (IH (pre ++ f) (S n) HFs) by (rewrite app_length; cbn; lia).
      apply map_ext. intro x. rewrite <- !app_assoc. reflexivity. }
  exact (G frames [] 0 HF eq_refl).
Qed.
Print Assumptions C26_round_trip_dense.
Example C26_round_trip_dense_used :
  synchronize 0 (default_sync 2) 2 [(7, concat [[1; 2]; [3; 4]] ++ [9])] = [(7, [1; 2]); (9, [3; 4])].
Proof. reflexivity. Qed.

(** A frame that arrives spread over two adjacent blocks is lost, although the samples of both
    blocks together contain it. *)
Theorem C26_frame_across_blocks_refuted : ~ forall (spf : nat) (b1 b2 : list nat),
  synchronize 0 (default_sync spf) spf [(0, b1); (length b1, b2)]
  = synchronize 0 (default_sync spf) spf [(0, b1 ++ b2)].
Proof. intro H. specialize (H 2 [1] [2]). vm_compute in H. discriminate. Qed.
Print Assumptions C26_frame_across_blocks_refuted.

(** *** Time stamps *)

(** The time stamp of a transmitted frame is the time of its first sample. *)
Theorem C53_transmission_timestamp : forall n spf (frame_duration sampling_rate : Q),
  (0 < sampling_rate)%Q -> (frame_duration == inject_Z (Z.of_nat spf) / sampling_rate)%Q ->
  (tx_timestamp n frame_duration == inject_Z (Z.of_nat (n * spf)) / sampling_rate)%Q.
Proof.
  intros n spf f r Hr Hf. unfold tx_timestamp. rewrite Hf, Nat2Z.inj_mul, inject_Z_mult. field. lra.
Qed.
Print Assumptions C53_transmission_timestamp.
Example C53_transmission_timestamp_used : (tx_timestamp 3 (8 # 4) == inject_Z 24 / 4)%Q.
Proof. reflexivity. Qed.

(** The time stamp of a received frame is not the time of its first sample: it is that time
    multiplied with the square of the sampling rate. *)
Theorem C53_reception_timestamp_scale : forall start (sampling_rate : Q), (0 < sampling_rate)%Q ->
  (rx_timestamp start sampling_rate
   == inject_Z (Z.of_nat start) / sampling_rate * (sampling_rate * sampling_rate))%Q.
Proof. intros start r Hr. unfold rx_timestamp. field. lra. Qed.
Print Assumptions C53_reception_timestamp_scale.
Theorem C53_reception_timestamp_correct_iff : forall start (sampling_rate : Q), (0 < sampling_rate)%Q ->
  (rx_timestamp start sampling_rate == inject_Z (Z.of_nat start) / sampling_rate)%Q
  <-> start = 0 \/ (sampling_rate == 1)%Q.
Proof.
  intros start r Hr. unfold rx_timestamp. set (x := inject_Z (Z.of_nat start)). split.
  - intro H. destruct (Nat.eq_dec start 0) as [E|E]; [left; exact E|right].
    assert (Px : (0 < x)%Q) by (unfold x; unfold Qlt; cbn; lia).
    assert (H2 : (x * (r * r) == x * 1)%Q).
    { setoid_replace (x * (r * r))%Q with (x * r * r)%Q by ring. rewrite H. field. lra. }
    assert (H3 : (r * r == 1)%Q) by (apply Qmult_inj_l with (z := x); [lra|exact H2]).
    nra.
  - intros [E|E]; [unfold x; rewrite E; cbn; field; lra|rewrite E; field].
Qed.
Print Assumptions C53_reception_timestamp_correct_iff.
Theorem C53_reception_timestamp_refuted : ~ forall start (sampling_rate : Q), (0 < sampling_rate)%Q ->
  (rx_timestamp start sampling_rate == inject_Z (Z.of_nat start) / sampling_rate)%Q.
Proof.
  intro H. specialize (H 1 2%Q ltac:(reflexivity)). vm_compute in H. discriminate.
Qed.
Print Assumptions C53_reception_timestamp_refuted.

(** *** Bits and streams *)

(** If unmapping inverts mapping within one stream and every stream maps to [nb > 0] blocks
    of [ns > 0] symbols, then mapping bits to any number of streams succeeds, gives every
    stream its own consecutive section, and unmapping returns the bits. *)
Theorem C54_streams_round_trip : forall {S} (map_bits : bits -> list (list S)) unmap_bits streams k nb ns b,
  0 < streams -> length b = streams * k -> 0 < nb -> 0 < ns ->
  (forall f, length f = k -> length (map_bits f) = nb /\ Forall (fun x => length x = ns) (map_bits f)) ->
  (forall f, length f = k -> unmap_bits (map_bits f) = f) ->
  exists symbols, map_streams map_bits streams b = Ok symbols /\
    length symbols = streams /\
    (forall i, i < streams -> nth_error symbols i = Some (map_bits (firstn k (skipn (i * k) b)))) /\
    unmap_streams unmap_bits k symbols = Ok b.
Proof.
  intros S map_bits unmap_bits streams k nb ns b Hs Hb Hnb Hns HM HU.
  assert (K : length b / streams = k) by (rewrite Hb, Nat.mul_comm, Nat.div_mul; lia).
  assert (R : length b mod streams = 0) by (rewrite Hb, Nat.mul_comm; apply Nat.mod_mul; lia).
  assert (F : Forall (fun f => length f = k) (blocks_of streams k b)) by (apply blocks_of_all_len; lia).
  exists (map map_bits (blocks_of streams k b)).
  split; [|split; [|split]].
  - unfold map_streams. rewrite K, R. destruct (Nat.eqb_spec streams 0); [lia|]. cbn [orb negb Nat.eqb].
    rewrite (fold_append map_bits nb ns Hns Hnb _ []); [reflexivity| |apply Forall_nil].
    revert F. apply Forall_impl. exact HM.
  - rewrite map_length. apply length_blocks_of.
  - intros i Hi. rewrite nth_error_map'. unfold blocks_of. rewrite nth_error_map', nth_error_seq.
    destruct (Nat.ltb_spec i streams); [|lia]. cbn [option_map Nat.add]. unfold slice. do 3 f_equal. lia.
  - unfold unmap_streams. rewrite (unmap_fold unmap_bits k _ []).
    + cbn [app]. rewrite map_map. f_equal.
      rewrite (map_ext_in _ (fun x => x)); [rewrite map_id, concat_blocks_of, <- Hb, firstn_all; reflexivity|].
      intros f Hf. apply HU. exact (proj1 (Forall_forall _ _) F f Hf).
    + apply Forall_forall. intros x Hx. apply in_map_iff in Hx. destruct Hx as [f [<- Hf]].
      pose proof (proj1 (Forall_forall _ _) F f Hf) as Lf. cbn in Lf. rewrite (HU f Lf). exact Lf.
Qed.
Print Assumptions C54_streams_round_trip.
Example C54_streams_round_trip_used :
  map_streams (fun f => map (fun x : bool => [x]) f) 2 [true; false; false; true]
  = Ok [[[true]; [false]]; [[false]; [true]]].
Proof. reflexivity. Qed.

(** A number of bits that cannot be divided evenly among the streams raises. *)
Theorem C54_uneven_bits_raise : forall {S} (map_bits : bits -> list (list S)) streams b,
  streams = 0 \/ (forall k, length b <> streams * k) -> map_streams map_bits streams b = Raise ValueError.
Proof.
  intros S map_bits streams b H. unfold map_streams. destruct (Nat.eqb_spec streams 0) as [E|E]; [reflexivity|].
  destruct H as [H|H]; [contradiction|]. cbn [orb].
  destruct (Nat.eqb_spec (length b mod streams) 0) as [M|M]; [|reflexivity].
  exfalso. apply (H (length b / streams)). pose proof (Nat.div_mod_eq (length b) streams). lia.
Qed.
Print Assumptions C54_uneven_bits_raise.
Example C54_uneven_bits_raise_used :
  map_streams (fun f => map (fun x : bool => [x]) f) 2 [true; false; false] = Raise ValueError.
Proof. reflexivity. Qed.

(** The symbols of a transmission or reception: stream by stream the blocks of all frames, in
    the order of the frames. *)
Theorem C54_symbols_of_frames : forall {S} streams ns (frames : list (list (list (list S)))),
  0 < streams -> 0 < ns -> frames <> [] ->
  Forall (fun f => length f = streams /\ Forall (fun s => s <> [] /\ Forall (fun b => length b = ns) s) f) frames ->
  exists symbols, concat_symbols frames = Ok symbols /\ length symbols = streams /\
    forall i, i < streams -> nth i symbols [] = concat (map (fun f => nth i f []) frames).
Proof.
  intros S streams ns frames Hst Hns HN HF.
  set (good := fun f : list (list (list S)) =>
    length f = streams /\ Forall (fun s => s <> [] /\ Forall (fun b => length b = ns) s) f).
  assert (N : forall f, good f -> num_symbols f = ns).
  { intros f [L G]. destruct f as [|s f]; [cbn in L; lia|]. apply Forall_inv in G. destruct G as [G1 G2].
    destruct s as [|b s]; [contradiction|]. cbn. apply Forall_inv in G2. exact G2. }
  assert (G : forall fs s, Forall good fs -> good s ->
    exists r, fold_left (fun r f => do s <- r; append_symbols s f) fs (Ok s) = Ok r /\ good r /\
      forall i, i < streams -> nth i r [] = nth i s [] ++ concat (map (fun f => nth i f []) fs)).
  { induction fs as [|f fs IH]; intros s HFs Hs; cbn [fold_left].
    - exists s. split; [reflexivity|]. split; [exact Hs|]. intros i Hi. cbn. rewrite app_nil_r. reflexivity.
    - apply Forall_cons_iff in HFs. destruct HFs as [Hf HFs]. cbn [bind].
      rewrite (append_symbols_ok s f streams ns Hns (proj1 Hs) (proj1 Hf) (N s Hs) (N f Hf)).
      destruct (IH (map (fun '(a, b) => a ++ b) (combine s f)) HFs) as [r [E [Gr Pr]]].
      { destruct Hs as [Ls Gs], Hf as [Lf Gf]. split; [rewrite map_length, combine_length; lia|].
        apply Forall_forall. intros x Hx. apply in_map_iff in Hx. destruct Hx as [[a b] [<- Hab]].
        pose proof (proj1 (Forall_forall _ _) Gs a (in_combine_l _ _ _ _ Hab)) as [A1 A2].
        pose proof (proj1 (Forall_forall _ _) Gf b (in_combine_r _ _ _ _ Hab)) as [B1 B2].
        split; [destruct a; [contradiction|discriminate]|]. apply Forall_app. split; assumption. }
      exists r. split; [exact E|]. split; [exact Gr|]. intros i Hi. rewrite (Pr i Hi). cbn [map concat].
      rewrite app_assoc. f_equal.
      apply nth_combined; destruct Hs, Hf; lia. }
  destruct frames as [|f fs]; [contradiction|]. apply Forall_cons_iff in HF. destruct HF as [Hf HF].
  destruct (G fs f HF Hf) as [r [E [[Lr _] P]]]. exists r. split; [exact E|]. split; [exact Lr|]. exact P.
Qed.
Print Assumptions C54_symbols_of_frames.
Example C54_symbols_of_frames_used :
  concat_symbols [[[[1]]; [[2]]]; [[[3]]; [[4]]]] = Ok [[[1]; [3]]; [[2]; [4]]].
Proof. reflexivity. Qed.
