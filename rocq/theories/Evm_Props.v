(** C55: error vector magnitude. *)
From Coq Require Import Reals List Arith Lia Lra.
From Coquelicot Require Import Complex.
From Verif Require Import Evm_Model.
Import ListNotations.
Open Scope R_scope.

Lemma rsum_nonneg l : Forall (fun x => 0 <= x) l -> 0 <= rsum_list l.
Proof. unfold rsum_list. induction 1; cbn; lra. Qed.
Lemma rsum_zero l : Forall (fun x => 0 <= x) l -> rsum_list l = 0 -> Forall (fun x => x = 0) l.
Proof.
  induction 1 as [|x l Hx Hl IH]; intro H; [apply Forall_nil|]. pose proof (rsum_nonneg l Hl).
  change (rsum_list (x :: l)) with (x + rsum_list l) in H.
  apply Forall_cons; [lra|apply IH; lra].
Qed.
Lemma squared_nonneg t r : Forall (fun x => 0 <= x) (squared_errors t r).
Proof. apply Forall_forall. intros x H. apply in_map_iff in H. destruct H as [[a b] [<- _]]. apply pow2_ge_0. Qed.
Lemma squared_length t r : length (squared_errors t r) = Nat.min (length t) (length r).
Proof. unfold squared_errors. rewrite map_length. apply combine_length. Qed.
Lemma evm_some t r : t <> [] -> r <> [] ->
  evm t r = Some (sqrt (rsum_list (squared_errors t r) / INR (Nat.min (length t) (length r)))).
Proof.
  intros Ht Hr. unfold evm. rewrite <- squared_length. destruct t; [contradiction|]. destruct r; [contradiction|]. reflexivity.
Qed.

(** The magnitude is a root mean square: it is not negative and its square times the number
    of compared symbols is the sum of the squared distances. *)
Theorem C55_evm_is_root_mean_square : forall t r, t <> [] -> r <> [] ->
  exists e, evm t r = Some e /\ 0 <= e /\
    e ^ 2 * INR (Nat.min (length t) (length r)) = rsum_list (squared_errors t r).
Proof.
  intros t r Ht Hr. rewrite (evm_some t r Ht Hr). eexists. split; [reflexivity|].
  assert (N : 0 < INR (Nat.min (length t) (length r))) by (apply lt_0_INR; destruct t, r; try contradiction; cbn; lia).
  split; [apply sqrt_pos|]. rewrite pow2_sqrt.
  - field. lra.
  - apply Rmult_le_pos; [apply rsum_nonneg, squared_nonneg|]. apply Rlt_le, Rinv_0_lt_compat, N.
Qed.
Print Assumptions C55_evm_is_root_mean_square.

(** It vanishes exactly if all compared symbols agree. *)
Theorem C55_evm_zero_iff : forall t r, t <> [] -> r <> [] ->
  evm t r = Some 0 <-> firstn (length r) t = firstn (length t) r.
Proof.
  intros t r Ht Hr. rewrite (evm_some t r Ht Hr).
  assert (N : 0 < INR (Nat.min (length t) (length r))) by (apply lt_0_INR; destruct t, r; try contradiction; cbn; lia).
  pose proof (rsum_nonneg _ (squared_nonneg t r)) as P.
  assert (Z : rsum_list (squared_errors t r) = 0 <-> firstn (length r) t = firstn (length t) r).
  { clear. split.
    - intro H. apply rsum_zero in H; [|apply squared_nonneg]. revert r H.
      induction t as [|x t IH]; intros [|y r] H; try reflexivity. cbn in H. apply Forall_cons_iff in H. destruct H as [H0 H].
      cbn. f_equal; [|apply IH, H].
      assert (M : Cmod (Cminus x y) = 0) by nra. apply Cmod_eq_0 in M.
      replace x with (Cplus (Cminus x y) y) by ring. rewrite M. ring.
    - revert r. induction t as [|x t IH]; intros [|y r] H; try reflexivity. cbn in H. injection H as -> H.
      change (rsum_list (squared_errors (y :: t) (y :: r)))
        with (Cmod (Cminus y y) ^ 2 + rsum_list (squared_errors t r)).
      rewrite (IH r H). replace (Cminus y y) with (RtoC 0) by ring. rewrite Cmod_0. ring. }
  rewrite <- Z. split; intro H.
  - injection H as H. apply sqrt_eq_0 in H.
    + apply (Rmult_eq_reg_r (/ INR (Nat.min (length t) (length r)))); [|apply Rinv_neq_0_compat; lra]. rewrite Rmult_0_l. exact H.
    + apply Rmult_le_pos; [exact P|]. apply Rlt_le, Rinv_0_lt_compat, N.
  - rewrite H. f_equal. unfold Rdiv. rewrite Rmult_0_l. apply sqrt_0.
Qed.
Print Assumptions C55_evm_zero_iff.

(** Exchanging transmitted and received symbols changes nothing. *)
Theorem C55_evm_symmetric : forall t r, evm t r = evm r t.
Proof.
  intros t r. assert (E : squared_errors t r = squared_errors r t).
  { revert r. induction t as [|x t IH]; intros [|y r]; try reflexivity. unfold squared_errors in *. cbn [combine map]. f_equal; [|apply IH].
    replace (Cminus y x) with (Copp (Cminus x y)) by ring. rewrite Cmod_opp. reflexivity. }
  unfold evm. rewrite E. reflexivity.
Qed.
Print Assumptions C55_evm_symmetric.

(** Scaling both scales the magnitude. *)
Theorem C55_evm_scales : forall (c : C) t r e, evm t r = Some e ->
  evm (map (Cmult c) t) (map (Cmult c) r) = Some (Cmod c * e).
Proof.
  intros c t r e H. destruct t as [|x t]; [discriminate|]. destruct r as [|y r]; [discriminate|].
  rewrite evm_some in H by discriminate. injection H as <-. rewrite evm_some by discriminate. f_equal.
  set (tt := x :: t). set (rr := y :: r). rewrite !map_length.
  assert (E : rsum_list (squared_errors (map (Cmult c) tt) (map (Cmult c) rr)) = Cmod c ^ 2 * rsum_list (squared_errors tt rr)).
  { generalize tt, rr. clear. intro t. induction t as [|x t IH]; intros [|y r].
    - cbn. ring. - cbn. ring. - cbn. ring.
    - change (Cmod (Cminus (Cmult c x) (Cmult c y)) ^ 2 + rsum_list (squared_errors (map (Cmult c) t) (map (Cmult c) r))
        = Cmod c ^ 2 * (Cmod (Cminus x y) ^ 2 + rsum_list (squared_errors t r))). rewrite IH.
      replace (Cminus (Cmult c x) (Cmult c y)) with (Cmult c (Cminus x y)) by ring. rewrite Cmod_mult. ring. }
  rewrite E. unfold Rdiv. rewrite Rmult_assoc, sqrt_mult_alt by apply pow2_ge_0. rewrite sqrt_pow2 by apply Cmod_ge_0. reflexivity.
Qed.
Print Assumptions C55_evm_scales.
Example C55_used : evm [RtoC 1; RtoC 2] [RtoC 1] = Some 0.
Proof. apply C55_evm_zero_iff; [discriminate|discriminate|reflexivity]. Qed.

(** Symbols beyond the shorter sequence are ignored: missing symbols never count. *)
Theorem C55_missing_symbols_ignored : forall t r rest, length t = length r -> evm (t ++ rest) r = evm t r.
Proof.
  intros t r rest L. assert (E : squared_errors (t ++ rest) r = squared_errors t r).
  { unfold squared_errors. f_equal. revert r L. induction t as [|x t IH]; intros [|y r] L; cbn in L; try discriminate; [destruct rest; reflexivity|].
    cbn. f_equal. apply IH. congruence. }
  unfold evm. rewrite E. reflexivity.
Qed.
Print Assumptions C55_missing_symbols_ignored.
