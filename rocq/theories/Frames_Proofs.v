(** Lemmas about frames. *)
From Coq Require Import List Arith Bool ZArith QArith Qround Lia.
From Verif Require Import Base BaseLemmas Frames_Model.
Import ListNotations.
Open Scope nat_scope.

Lemma generate_app src pos a b : generate_bits src pos (a + b) = generate_bits src pos a ++ generate_bits src (pos + a) b.
Proof. unfold generate_bits. rewrite seq_app, map_app. reflexivity. Qed.

Lemma nth_of_error {B} (l : list B) i d : nth i l d = match nth_error l i with Some x => x | None => d end.
Proof. revert i. induction l as [|x l IH]; intros [|i]; cbn; auto. Qed.

Lemma firstn_plus {B} a b (l : list B) : firstn (a + b) l = firstn a l ++ firstn b (skipn a l).
Proof. revert l. induction a; intros [|x l]; cbn; rewrite ?firstn_nil; auto. f_equal. auto. Qed.

Section Frames.
Context {A : Type}.
Variable zero : A.

Lemma transmit_bits src k modulated (encoded : bits -> list (@block A)) count : forall n pos offset,
  concat (map x_bits (transmit_frames src k modulated encoded count n pos offset))
  = generate_bits src pos (count * k).
Proof.
  induction count as [|c IH]; intros n pos offset; [reflexivity|].
  cbn [transmit_frames map concat x_bits Nat.mul]. rewrite IH, generate_app. reflexivity.
Qed.

Lemma transmit_nth src k modulated (encoded : bits -> list (@block A)) spf count :
  (forall b, length b = k -> modulated b = spf) -> forall n pos offset i, i < count ->
  nth_error (transmit_frames src k modulated encoded count n pos offset) i
  = Some (mkTx (n + i) (generate_bits src (pos + i * k) k)
      (map (fun b => (fst b + (offset + i * spf), snd b)) (encoded (generate_bits src (pos + i * k) k)))).
Proof.
  intro HM. induction count as [|c IH]; intros n pos offset i Hi; [lia|].
  destruct i as [|i]; cbn [transmit_frames nth_error].
  - cbn [Nat.mul]. rewrite !Nat.add_0_r. reflexivity.
  - rewrite HM by (unfold generate_bits; rewrite map_length, seq_length; reflexivity).
    rewrite IH by lia. cbn [Nat.mul].
    replace (S n + i) with (n + S i) by lia.
    replace (pos + k + i * k) with (pos + (k + i * k)) by lia.
    replace (offset + spf + i * spf) with (offset + (spf + i * spf)) by lia. reflexivity.
Qed.

Lemma transmit_length src k modulated (encoded : bits -> list (@block A)) count : forall n pos offset,
  length (transmit_frames src k modulated encoded count n pos offset) = count.
Proof. induction count as [|c IH]; intros; cbn; auto. Qed.

(** Concatenated bits *)
Lemma total_length fs : forall a : nat, fold_left (fun a (f : bits) => a + length f) fs a = a + length (concat fs).
Proof.
  induction fs as [|f fs IH]; intro a; cbn [fold_left concat length]; [lia|]. rewrite IH, app_length. lia.
Qed.
Lemma write_at_app (done rest x : bits) : length x <= length rest ->
  write_at (done ++ rest) (length done) x = (done ++ x) ++ skipn (length x) rest.
Proof.
  intro H. unfold write_at. rewrite firstn_app, firstn_all, Nat.sub_diag. cbn [firstn]. rewrite app_nil_r.
  rewrite skipn_app, (skipn_all2 done) by lia. cbn [app]. rewrite <- app_assoc. do 3 f_equal. lia.
Qed.
Lemma fill_frames fs : forall done rest, length rest = length (concat fs) ->
  fst (fold_left (fun '(buf, at_) f => (write_at buf at_ f, at_ + length f)) fs (done ++ rest, length done))
  = done ++ concat fs.
Proof.
  induction fs as [|f fs IH]; intros done rest L; cbn [fold_left concat].
  - destruct rest; [reflexivity|discriminate].
  - cbn [concat] in L. rewrite app_length in L. rewrite write_at_app by lia.
    replace (length done + length f) with (length (done ++ f)) by apply app_length.
    rewrite IH by (rewrite skipn_length; lia). rewrite <- app_assoc. reflexivity.
Qed.
Lemma concat_bits_spec junk fs : concat_bits junk fs = concat fs.
Proof.
  unfold concat_bits. rewrite total_length. cbn [Nat.add].
  apply (fill_frames fs [] (firstn (length (concat fs)) (junk ++ repeat false (length (concat fs))))).
  rewrite firstn_length, app_length, repeat_length. lia.
Qed.

(** Reception *)
Lemma cut_inside spf start (l : list A) : start + spf <= length l ->
  cut_frame zero spf start l = slice start (start + spf) l.
Proof.
  intro H. unfold cut_frame. rewrite length_slice by lia. rewrite Nat.min_l by lia.
  replace (spf - (start + spf - start)) with 0 by lia. apply app_nil_r.
Qed.
Lemma cut_length spf start (l : list A) : length (cut_frame zero spf start l) = spf.
Proof.
  unfold cut_frame. rewrite app_length, repeat_length.
  enough (length (slice start (start + spf) l) <= spf) by lia.
  unfold slice. rewrite firstn_length. lia.
Qed.
Lemma cut_nth spf start (l : list A) i : i < spf ->
  nth i (cut_frame zero spf start l) zero = nth (start + i) l zero.
Proof.
  intro Hi. unfold cut_frame. set (f := slice start (start + spf) l).
  assert (E : nth i f zero = nth (start + i) l zero)
    by (unfold f; rewrite !nth_of_error, nth_error_slice; replace (start + spf - start) with spf by lia;
        destruct (Nat.ltb_spec i spf); [reflexivity|lia]).
  destruct (Nat.lt_ge_cases i (length f)) as [H|H].
  - rewrite app_nth1 by exact H. exact E.
  - rewrite app_nth2 by exact H. rewrite nth_repeat, <- E. symmetry. apply nth_overflow, H.
Qed.
Lemma cut_frames_concat spf n : forall (l : list A), n * spf <= length l ->
  concat (map (fun k => cut_frame zero spf (k * spf) l) (seq 0 n)) = firstn (n * spf) l.
Proof.
  induction n as [|n IH]; intros l H; [reflexivity|].
  rewrite seq_S, map_app, concat_app, IH by (cbn in H; lia). cbn [map concat Nat.add]. rewrite app_nil_r.
  rewrite cut_inside by (cbn in H; lia). unfold slice. replace (n * spf + spf - n * spf) with spf by lia.
  replace (S n * spf) with (n * spf + spf) by (cbn; lia).
  symmetry. apply firstn_plus.
Qed.

Lemma sync_single (wav : bits -> list A) spf : 0 < spf -> (forall b, length (wav b) = spf) -> forall o b,
  map (fun start => (o + start, cut_frame zero spf start (wav b))) (default_sync spf (wav b)) = [(o, wav b)].
Proof.
  intros Hs HL o b. unfold default_sync. rewrite HL, Nat.div_same by lia. cbn [seq map Nat.mul].
  rewrite Nat.add_0_r. rewrite cut_inside by (rewrite HL; lia). unfold slice. cbn [skipn Nat.add].
  rewrite Nat.sub_0_r, <- (HL b), firstn_all. reflexivity.
Qed.
End Frames.

(** *** Streams of symbols *)
Section Mapping.
Context {S : Type}.
Implicit Types s : list (list (list S)).

Lemma append_stream_ok s (f : list (list S)) nb ns :
  0 < ns -> length f = nb -> 0 < nb -> Forall (fun b => length b = ns) f ->
  Forall (fun x => length x = nb /\ Forall (fun b => length b = ns) x) s ->
  append_stream s [f] = Ok (s ++ [f]).
Proof.
  intros Hns Hf Hnb HF HS. unfold append_stream.
  assert (Nf : num_symbols [f] = ns) by (destruct f as [|b f']; [cbn in Hf; lia|]; cbn; apply Forall_inv in HF; exact HF).
  assert (Bf : num_blocks [f] = nb) by exact Hf.
  destruct s as [|x s].
  - cbn. reflexivity.
  - pose proof (Forall_inv HS) as [Lx Fx].
    assert (Nx : num_symbols (x :: s) = ns) by (destruct x as [|b x']; [cbn in Lx; lia|]; cbn; apply Forall_inv in Fx; exact Fx).
    assert (Bx : num_blocks (x :: s) = nb) by exact Lx.
    rewrite Nx, Bx, Nf, Bf, !Nat.eqb_refl. cbn [negb].
    destruct (Nat.ltb_spec ns 1); [lia|]. cbn [andb]. reflexivity.
Qed.

Lemma fold_append (map_bits : bits -> list (list S)) nb ns : 0 < ns -> 0 < nb -> forall fs s,
  Forall (fun f => length (map_bits f) = nb /\ Forall (fun b => length b = ns) (map_bits f)) fs ->
  Forall (fun x => length x = nb /\ Forall (fun b => length b = ns) x) s ->
  fold_left (fun r f => do s <- r; append_stream s [map_bits f]) fs (Ok s) = Ok (s ++ map map_bits fs).
Proof.
  intros Hns Hnb. induction fs as [|f fs IH]; intros s HF HS; cbn [fold_left map].
  - rewrite app_nil_r. reflexivity.
  - apply Forall_cons_iff in HF. destruct HF as [[Hl Hb] HF]. cbn [bind].
    rewrite (append_stream_ok s (map_bits f) nb ns) by assumption.
    rewrite IH; [rewrite <- app_assoc; reflexivity|exact HF|].
    apply Forall_app. split; [exact HS|]. apply Forall_cons; [split; assumption|apply Forall_nil].
Qed.

Lemma unmap_fold (unmap_bits : list (list S) -> bits) k : forall s acc,
  Forall (fun x => length (unmap_bits x) = k) s ->
  fold_left (fun r f => do acc <- r;
    let x := unmap_bits f in
    if (length x =? k)%nat then Ok (acc ++ x)
    else if (length x =? 1)%nat then Ok (acc ++ repeat (hd false x) k)
    else Raise ValueError) s (Ok acc) = Ok (acc ++ concat (map unmap_bits s)).
Proof.
  induction s as [|x s IH]; intros acc H; cbn [fold_left map concat].
  - rewrite app_nil_r. reflexivity.
  - apply Forall_cons_iff in H. destruct H as [Hx H]. cbn [bind]. cbv zeta. rewrite Hx, Nat.eqb_refl.
    rewrite IH by exact H. rewrite app_assoc. reflexivity.
Qed.

Lemma nth_combined (s f : list (list (list S))) : forall i, i < length s -> i < length f ->
  nth i (map (fun '(a, b) => a ++ b) (combine s f)) [] = nth i s [] ++ nth i f [].
Proof.
  revert f. induction s as [|x s IH]; intros [|y f] i Hs Hf; cbn in Hs, Hf; try lia.
  destruct i; [reflexivity|]. cbn. apply IH; lia.
Qed.

Lemma append_symbols_ok (s f : list (list (list S))) n ns : 0 < ns ->
  length s = n -> length f = n -> num_symbols s = ns -> num_symbols f = ns ->
  append_symbols s f = Ok (map (fun '(a, b) => a ++ b) (combine s f)).
Proof.
  intros Hns Ls Lf Ns Nf. unfold append_symbols. rewrite Ns, Nf, Ls, Lf, !Nat.eqb_refl.
  destruct (Nat.ltb_spec ns 1); [lia|]. reflexivity.
Qed.
End Mapping.
