(** * C136: high-pass filters of radio-frequency chains *)
From Coq Require Import List Arith Bool Reals ZArith Lra Lia.
From Coquelicot Require Import Complex.
From Verif Require Import Base Hpf_Model Hpf_Spec Hpf_Proofs.
Open Scope R_scope.

(** Filters have positive cutoff frequencies and orders *)
Theorem C136_settings : forall c o, ((exists f, new_hpf c o = Ok f) <-> 0 < c /\ (1 <= o)%Z) /\
  (forall f, new_hpf c o = Ok f -> cutoff f = c /\ Z.of_nat (order f) = o) /\ (forall e, new_hpf c o = Raise e -> e = ValueError).
Proof.
  intros c o. unfold new_hpf, set_cutoff, set_order. destruct (Rle_dec c 0) as [L|L]; cbn [bind].
  - split; [split; [intros [f H]; discriminate|intros [H _]; lra]|]. split; [discriminate|congruence].
  - destruct (Z.ltb_spec o 1) as [K|K]; cbn [bind].
    + split; [split; [intros [f H]; discriminate|intros [_ H]; lia]|]. split; [discriminate|congruence].
    + split; [split; [intros _; split; [lra|lia]|intros _; eauto]|]. split; [|discriminate]. intros f H. injection H as <-. cbn. split; [reflexivity|lia].
Qed.
Print Assumptions C136_settings.

(** They are realized only if the cutoff is below half the sampling rate *)
Theorem C136_realizations : forall design f bandwidth oversampling,
  (realize design f bandwidth oversampling = Raise ValueError <-> bandwidth * INR oversampling <= 2 * cutoff f) /\
  (2 * cutoff f < bandwidth * INR oversampling -> realize design f bandwidth oversampling = Ok (design (cutoff f) (bandwidth * INR oversampling) (order f))).
Proof.
  intros design f b o. unfold realize. destruct (Rlt_dec (cutoff f) (b * INR o / 2)) as [L|L]; split; try split; intro H; try reflexivity; try discriminate; try lra; exfalso; lra.
Qed.
Print Assumptions C136_realizations.

(** Signals not longer than three times the number of coefficients are refused, others keep their size and rate *)
Theorem C136_sizes : forall c s,
  (propagate c s = Raise ValueError <-> (samples s <= 3 * (degree c + 1))%nat) /\
  ((3 * (degree c + 1) < samples s)%nat -> exists t, propagate c s = Ok t /\ streams t = streams s /\ samples t = samples s /\ sampling_rate t = sampling_rate s).
Proof.
  intros c s. unfold propagate, edge. destruct (Nat.leb_spec (samples s) (3 * (degree c + 1))) as [L|L]; split; try split; intro H; try reflexivity; try discriminate; try exact L; try lia.
  eexists. split; [reflexivity|]. auto.
Qed.
Print Assumptions C136_sizes.

(** Constants, and with them offsets of any signal, leave the filter with the squared ratio of the sums of its coefficients: not at all
    if those of the numerator cancel *)
Theorem C136_offsets : forall c s t v u, well_designed c -> propagate c s = Ok t ->
  propagate c (mkSignal (streams s) (samples s) (fun r k => (value s r k + v r)%C) (sampling_rate s)) = Ok u ->
  (forall r k, value u r k = (value t r k + gain_numerator c / gain_denominator c * (gain_numerator c / gain_denominator c) * v r)%C) /\
  (gain_numerator c = RtoC 0 -> forall r k, value u r k = value t r k).
Proof.
  intros c s t v u W Ht Hu. unfold propagate in Ht, Hu. cbn [samples streams value sampling_rate] in Hu.
  destruct (samples s <=? edge c)%nat; [discriminate|]. injection Ht as <-. injection Hu as <-. cbn [value].
  assert (E : forall r k, filtfilt c (samples s) (fun k => (value s r k + v r)%C) k =
    (filtfilt c (samples s) (value s r) k + gain_numerator c / gain_denominator c * (gain_numerator c / gain_denominator c) * v r)%C).
  { intros r k. transitivity (filtfilt c (samples s) (fun j => RtoC 1 * value s r j + RtoC 1 * (fun _ => v r) j)%C k); [apply filtfilt_ext; intro j; ring|].
    rewrite filtfilt_linear, filtfilt_constant by exact W. ring. }
  split; [exact E|]. intros G r k. rewrite E, G. field. exact (proj1 (proj2 W)).
Qed.
Print Assumptions C136_offsets.

(** Superpositions of signals are filtered like the signals *)
Theorem C136_superposition : forall c s s' t t' (a b : C), samples s' = samples s -> propagate c s = Ok t -> propagate c s' = Ok t' ->
  exists u, propagate c (mkSignal (streams s) (samples s) (fun r k => (a * value s r k + b * value s' r k)%C) (sampling_rate s)) = Ok u /\
  forall r k, value u r k = (a * value t r k + b * value t' r k)%C.
Proof.
  intros c s s' t t' a b L Ht Ht'. unfold propagate in *. cbn [samples streams value sampling_rate]. rewrite L in Ht'.
  destruct (samples s <=? edge c)%nat; [discriminate|]. injection Ht as <-. injection Ht' as <-. eexists. split; [reflexivity|]. intros r k. cbn [value]. apply filtfilt_linear.
Qed.
Print Assumptions C136_superposition.

(** Every stream is filtered on its own *)
Theorem C136_streams : forall c s s' t t' r, samples s' = samples s -> (forall k, value s' r k = value s r k) -> propagate c s = Ok t -> propagate c s' = Ok t' ->
  forall k, value t' r k = value t r k.
Proof.
  intros c s s' t t' r L E Ht Ht' k. unfold propagate in *. rewrite L in Ht'. destruct (samples s <=? edge c)%nat; [discriminate|]. injection Ht as <-. injection Ht' as <-. cbn [value]. apply filtfilt_ext. exact E.
Qed.
Print Assumptions C136_streams.

(** Signals are filtered forwards and then backwards, continued by as many samples, mirrored through the first and last one, as the filter's coefficients times three *)
Theorem C136_both_directions : forall c s t r, well_designed c -> propagate c s = Ok t ->
  let e := (3 * (degree c + 1))%nat in let n := samples s in
  exists u y w, filters c u y /\ filters c (fun j => y (n + 2 * e - 1 - j)%nat) w /\
  (forall k, (k < n)%nat -> u (e + k)%nat = value s r k) /\
  (forall k, (0 < k <= e)%nat -> (u (e - k)%nat + value s r k)%C = (2 * value s r 0%nat)%C /\ (u (e + n - 1 + k)%nat + value s r (n - 1 - k)%nat)%C = (2 * value s r (n - 1)%nat)%C) /\
  (forall k, (k < n)%nat -> value t r k = w (n + 2 * e - 1 - (e + k))%nat).
Proof.
  intros c s t r W H e n. unfold propagate in H. destruct (Nat.leb_spec (samples s) (edge c)) as [|L]; [discriminate|]. injection H as <-. cbn [value]. unfold edge in L. fold n e in L.
  destruct W as (H1 & _ & Hz & _). set (x := value s r).
  exists (extended e n x), (lfilter c (scaled (extended e n x 0%nat) (initial c)) (extended e n x)).
  set (y := lfilter c (scaled (extended e n x 0%nat) (initial c)) (extended e n x)).
  exists (lfilter c (scaled (y (n + 2 * e - 1 - 0)%nat) (initial c)) (fun j => y (n + 2 * e - 1 - j)%nat)).
  split; [|split; [|split; [|split]]].
  - intros k Hk. apply lfilter_equation; [exact H1| |exact Hk]. intros i Hi. unfold scaled. rewrite Hz by exact Hi. ring.
  - intros k Hk. apply (lfilter_equation c _ (fun j => y (n + 2 * e - 1 - j)%nat)); [exact H1| |exact Hk]. intros i Hi. unfold scaled. rewrite Hz by exact Hi. ring.
  - intros k Hk. unfold extended. destruct (Nat.ltb_spec (e + k) e); [lia|]. destruct (Nat.ltb_spec (e + k) (e + n)); [|lia]. f_equal. lia.
  - intros k Hk. unfold extended. split.
    + destruct (Nat.ltb_spec (e - k) e); [|lia]. replace (e - (e - k))%nat with k by lia. fold x. ring.
    + destruct (Nat.ltb_spec (e + n - 1 + k) e); [lia|]. destruct (Nat.ltb_spec (e + n - 1 + k) (e + n)); [lia|].
      replace (n - 2 - (e + n - 1 + k - e - n))%nat with (n - 1 - k)%nat by lia. fold x. ring.
  - intros k Hk. unfold filtfilt. change (edge c) with e. fold n. fold y. replace (e + k)%nat with (k + e)%nat by lia. reflexivity.
Qed.
Print Assumptions C136_both_directions.

(** Half the difference of neighbouring samples *)
Definition half : C := RtoC (1 / 2).
Definition difference : coefficients :=
  mkCoefficients 1 (fun i => match i with O => half | S O => (- half)%C | _ => RtoC 0 end) (fun i => match i with O => RtoC 1 | _ => RtoC 0 end)
    (fun i => match i with O => (- half)%C | _ => RtoC 0 end).
Example C136_met : well_designed difference /\ gain_numerator difference = RtoC 0 /\
  (exists t, propagate difference (mkSignal 2 7 (fun r k => RtoC (INR (r + k))) 1) = Ok t) /\ (exists f, new_hpf 100 4 = Ok f).
Proof.
  split; [|split; [|split]].
  - unfold well_designed, gain_denominator. cbn [degree denominator numerator initial difference plus total]. split; [reflexivity|]. split.
    + intro H. apply (f_equal fst) in H. cbn in H. lra.
    + split; [intros [|i] L; [cbn in L; lia|reflexivity]|]. intros [|i] L; [|cbn in L; lia]. cbn. ring.
  - unfold gain_numerator. cbn [degree numerator difference plus total]. ring.
  - eexists. reflexivity.
  - apply (proj2 (proj1 (C136_settings 100 4))). split; [lra|lia].
Qed.
