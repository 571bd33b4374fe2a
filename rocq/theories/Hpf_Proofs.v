From Coq Require Import List Arith Bool Reals ZArith Lra Lia.
From Coquelicot Require Import Complex.
From Verif Require Import Base Hpf_Model Hpf_Spec.
Open Scope R_scope.

Lemma state_ext c z z' x x' k : (forall i, z i = z' i) -> (forall j, x j = x' j) -> forall i, state c z x k i = state c z' x' k i.
Proof.
  intros Hz Hx. induction k as [|k IH]; intro i; cbn [state]; [apply Hz|]. destruct (i <? degree c)%nat; [|reflexivity]. rewrite !IH, Hx. reflexivity.
Qed.
Lemma lfilter_ext c z z' x x' k : (forall i, z i = z' i) -> (forall j, x j = x' j) -> lfilter c z x k = lfilter c z' x' k.
Proof. intros Hz Hx. unfold lfilter. rewrite (state_ext c z z' x x' k Hz Hx), Hx. reflexivity. Qed.
Lemma state_linear c (a b : C) z z' x x' k i :
  state c (fun i => a * z i + b * z' i)%C (fun j => a * x j + b * x' j)%C k i = (a * state c z x k i + b * state c z' x' k i)%C.
Proof.
  revert i. induction k as [|k IH]; intro i; cbn [state]; [reflexivity|]. destruct (i <? degree c)%nat; [|ring]. rewrite !IH. ring.
Qed.
Lemma lfilter_linear c (a b : C) z z' x x' k : lfilter c (fun i => a * z i + b * z' i)%C (fun j => a * x j + b * x' j)%C k = (a * lfilter c z x k + b * lfilter c z' x' k)%C.
Proof. unfold lfilter. rewrite state_linear. ring. Qed.
Lemma extended_linear e n (a b : C) x x' j : extended e n (fun j => a * x j + b * x' j)%C j = (a * extended e n x j + b * extended e n x' j)%C.
Proof. unfold extended. destruct (j <? e)%nat; [ring|]. destruct (j <? e + n)%nat; ring. Qed.
Lemma filtfilt_ext c n x x' k : (forall j, x j = x' j) -> filtfilt c n x k = filtfilt c n x' k.
Proof.
  intro H. unfold filtfilt. set (e := edge c).
  assert (U : forall j, extended e n x j = extended e n x' j) by (intro j; unfold extended; rewrite !H; reflexivity).
  assert (Y : forall j, lfilter c (scaled (extended e n x 0%nat) (initial c)) (extended e n x) j = lfilter c (scaled (extended e n x' 0%nat) (initial c)) (extended e n x') j)
    by (intro j; apply lfilter_ext; [intro i; unfold scaled; rewrite U; reflexivity|exact U]).
  apply lfilter_ext; [intro i; unfold scaled; rewrite Y; reflexivity|intro j; apply Y].
Qed.
Lemma filtfilt_linear c n (a b : C) x x' k : filtfilt c n (fun j => a * x j + b * x' j)%C k = (a * filtfilt c n x k + b * filtfilt c n x' k)%C.
Proof.
  unfold filtfilt. set (e := edge c). set (m := (n + 2 * e)%nat).
  set (u := extended e n x). set (u' := extended e n x').
  assert (Y : forall j, lfilter c (scaled (extended e n (fun j => a * x j + b * x' j)%C 0%nat) (initial c)) (extended e n (fun j => a * x j + b * x' j)%C) j =
    (a * lfilter c (scaled (u 0%nat) (initial c)) u j + b * lfilter c (scaled (u' 0%nat) (initial c)) u' j)%C).
  { intro j. rewrite <- lfilter_linear. apply lfilter_ext; [intro i; unfold scaled; rewrite extended_linear; unfold u, u'; ring|intro i; apply extended_linear]. }
  rewrite <- lfilter_linear. apply lfilter_ext; [intro i; cbv beta; rewrite Y; unfold scaled; cbv beta; ring|intro j; apply Y].
Qed.

Lemma total_shift f n : total f (n + 1) = (f 0%nat + total (fun i => f (S i)) n)%C.
Proof.
  induction n as [|n IH]; [cbn; ring|]. replace (S n + 1)%nat with (S (n + 1)) by lia. cbn [total]. rewrite IH. replace (n + 1)%nat with (S n) by lia. ring.
Qed.
(** The initial state keeps the output at the gain for constants *)
Lemma steady_gain c : well_designed c -> ((numerator c 0%nat + initial c 0%nat) * gain_denominator c = gain_numerator c)%C.
Proof.
  intros (H1 & _ & Hz & Hi). set (g := (numerator c 0%nat + initial c 0%nat)%C) in *.
  assert (T : forall k, (k <= degree c)%nat -> initial c 0%nat = (total (fun i => numerator c (S i)) k - g * total (fun i => denominator c (S i)) k + initial c k)%C).
  { induction k as [|k IH]; intro L; [cbn; ring|]. rewrite IH by lia. cbn [total]. rewrite (Hi k) by lia. ring. }
  unfold gain_denominator, gain_numerator. rewrite !total_shift, H1. specialize (T (degree c) (Nat.le_refl _)). rewrite (Hz (degree c)) in T by lia.
  replace (total (fun i => numerator c (S i)) (degree c)) with (initial c 0%nat + g * total (fun i => denominator c (S i)) (degree c))%C by (rewrite T; ring). unfold g. ring.
Qed.
Lemma state_constant c v k i : well_designed c -> state c (scaled v (initial c)) (fun _ => v) k i = (v * initial c i)%C.
Proof.
  intros (H1 & _ & Hz & Hi). revert i. induction k as [|k IH]; intro i; cbn [state]; [reflexivity|]. destruct (Nat.ltb_spec i (degree c)) as [L|L].
  - rewrite !IH. rewrite (Hi i L). ring.
  - rewrite Hz by exact L. ring.
Qed.
Lemma lfilter_constant c v k : well_designed c -> lfilter c (scaled v (initial c)) (fun _ => v) k = (gain_numerator c / gain_denominator c * v)%C.
Proof.
  intro W. unfold lfilter. rewrite state_constant by exact W. rewrite <- (steady_gain c W). field. exact (proj1 (proj2 W)).
Qed.
Lemma two_minus (v : C) : (2 * v - v)%C = v.
Proof. replace (RtoC 2) with (RtoC 1 + RtoC 1)%C by (rewrite <- RtoC_plus; f_equal; lra). ring. Qed.
Lemma filtfilt_constant c n v k : well_designed c -> filtfilt c n (fun _ => v) k = (gain_numerator c / gain_denominator c * (gain_numerator c / gain_denominator c) * v)%C.
Proof.
  intro W. unfold filtfilt. set (e := edge c). set (g := (gain_numerator c / gain_denominator c)%C).
  assert (U : forall j, extended e n (fun _ => v) j = v) by (intro j; unfold extended; destruct (j <? e)%nat; [apply two_minus|]; destruct (j <? e + n)%nat; [reflexivity|apply two_minus]).
  assert (Y : forall j, lfilter c (scaled (extended e n (fun _ => v) 0%nat) (initial c)) (extended e n (fun _ => v)) j = (g * v)%C).
  { intro j. transitivity (lfilter c (scaled v (initial c)) (fun _ => v) j); [|apply lfilter_constant; exact W]. apply lfilter_ext; [intro i; unfold scaled; rewrite U; reflexivity|exact U]. }
  transitivity (lfilter c (scaled (g * v)%C (initial c)) (fun _ => (g * v)%C) (n + 2 * e - 1 - (k + e))%nat).
  - apply lfilter_ext; [intro i; unfold scaled; rewrite Y; reflexivity|intro j; apply Y].
  - rewrite lfilter_constant by exact W. fold g. ring.
Qed.

(** ** The state as a sum over past samples *)
Lemma total_ext f g n : (forall i, (i < n)%nat -> f i = g i) -> total f n = total g n.
Proof. induction n as [|n IH]; intro H; [reflexivity|]. cbn [total]. rewrite IH, H by (try (intros; apply H); lia). reflexivity. Qed.
Lemma state_past c z x : (forall i, (degree c <= i)%nat -> z i = RtoC 0) -> forall m k j, (j + m = degree c)%nat -> (m <= k)%nat ->
  state c z x k j = total (fun l => numerator c (S (j + l)) * x (k - 1 - l)%nat - denominator c (S (j + l)) * lfilter c z x (k - 1 - l)%nat)%C m.
Proof.
  intros Hz. induction m as [|m IH]; intros k j E L.
  - cbn [total]. destruct k as [|k]; cbn [state]; [apply Hz; lia|]. destruct (Nat.ltb_spec j (degree c)); [lia|reflexivity].
  - destruct k as [|k]; [lia|]. cbn [state]. destruct (Nat.ltb_spec j (degree c)); [|lia]. rewrite (IH k (S j)) by lia.
    replace (S m) with (m + 1)%nat by lia. rewrite total_shift. replace (j + 0)%nat with j by lia. replace (S k - 1 - 0)%nat with k by lia.
    fold (lfilter c z x k). rewrite (total_ext (fun i => numerator c (S (j + S i)) * x (S k - 1 - S i)%nat - denominator c (S (j + S i)) * lfilter c z x (S k - 1 - S i)%nat)%C
      (fun l => numerator c (S (S j + l)) * x (k - 1 - l)%nat - denominator c (S (S j + l)) * lfilter c z x (k - 1 - l)%nat)%C m).
    + ring.
    + intros i _. replace (j + S i)%nat with (S j + i)%nat by lia. replace (S k - 1 - S i)%nat with (k - 1 - i)%nat by lia. reflexivity.
Qed.
Lemma total_minus f g n : total (fun i => f i - g i)%C n = (total f n - total g n)%C.
Proof. induction n as [|n IH]; cbn [total]; [ring|]. rewrite IH. ring. Qed.
Lemma lfilter_equation c z x k : denominator c 0%nat = RtoC 1 -> (forall i, (degree c <= i)%nat -> z i = RtoC 0) -> (degree c <= k)%nat ->
  total (fun i => denominator c i * lfilter c z x (k - i)%nat)%C (degree c + 1) = total (fun i => numerator c i * x (k - i)%nat)%C (degree c + 1).
Proof.
  intros H1 Hz L. rewrite !total_shift, H1, !Nat.sub_0_r. unfold lfilter at 1. rewrite (state_past c z x Hz (degree c) k 0) by lia. cbn [plus].
  rewrite total_minus. rewrite (total_ext (fun i => denominator c (S i) * lfilter c z x (k - S i)%nat)%C (fun l => denominator c (S l) * lfilter c z x (k - 1 - l)%nat)%C) by (intros i _; replace (k - S i)%nat with (k - 1 - i)%nat by lia; reflexivity).
  rewrite (total_ext (fun i => numerator c (S i) * x (k - S i)%nat)%C (fun l => numerator c (S l) * x (k - 1 - l)%nat)%C) by (intros i _; replace (k - S i)%nat with (k - 1 - i)%nat by lia; reflexivity). ring.
Qed.
