(** Lemmas on resampling and mixing. *)
From Coq Require Import List Reals ZArith Bool Arith Lia Lra.
From Coq Require Import FunctionalExtensionality.
From Coquelicot Require Import Complex.
From Verif Require Import Base BaseLemmas Cplx Cplx_Proofs Chan_Model Chan_Proofs Res_Model Res_Spec.
From Verif Require Sc_Model Sc_Proofs.
Import ListNotations.
Open Scope R_scope.

Lemma floor_spec : forall r, IZR (Int_part r) <= r < IZR (Int_part r) + 1.
Proof. intros r. destruct (base_Int_part r). lra. Qed.
Lemma floor_unique : forall r z, IZR z <= r < IZR z + 1 -> Int_part r = z.
Proof.
  intros r z H. assert (F := floor_spec r). assert (Int_part r < z + 1)%Z by (apply lt_IZR; rewrite plus_IZR; lra). assert (z < Int_part r + 1)%Z by (apply lt_IZR; rewrite plus_IZR; lra). lia.
Qed.
Lemma rint_near : forall r, IZR (rint r) - 1 / 2 <= r <= IZR (rint r) + 1 / 2.
Proof.
  intros r. assert (F := floor_spec r). destruct (rint_cases r) as [[-> H]|[-> H]]; [lra|]. rewrite plus_IZR. lra.
Qed.
Lemma rint_whole : forall z, rint (IZR z) = z.
Proof.
  intros z. assert (N := rint_near (IZR z)). assert (rint (IZR z) < z + 1)%Z by (apply lt_IZR; rewrite plus_IZR; lra). assert (z < rint (IZR z) + 1)%Z by (apply lt_IZR; rewrite plus_IZR; lra). lia.
Qed.
Lemma rint_nonneg : forall r, 0 <= r -> (0 <= rint r)%Z.
Proof. intros r H. rewrite <- (rint_whole 0). apply rint_mono. exact H. Qed.
Lemma rounded : forall r, 0 <= r -> INR (Z.to_nat (rint r)) - 1 / 2 <= r <= INR (Z.to_nat (rint r)) + 1 / 2.
Proof. intros r H. rewrite INR_IZR_INZ, Z2Nat.id by (apply rint_nonneg; exact H). apply rint_near. Qed.
Lemma rounded_nat : forall n, Z.to_nat (rint (INR n)) = n.
Proof. intros n. rewrite INR_IZR_INZ, rint_whole. apply Nat2Z.id. Qed.
Lemma cut_spec : forall r, 0 <= r -> INR (cut r) <= r < INR (cut r) + 1.
Proof.
  intros r H. unfold cut. assert (F := floor_spec r). assert (0 <= Int_part r)%Z by (apply Z.lt_succ_r; unfold Z.succ; apply lt_IZR; rewrite plus_IZR; lra).
  rewrite INR_IZR_INZ, Z2Nat.id by assumption. exact F.
Qed.
Lemma whole_spec : forall r, 0 <= r -> whole r = true -> r = INR (cut r).
Proof.
  intros r H W. unfold whole in W. destruct (Req_EM_T (IZR (Int_part r)) r) as [E|]; [|discriminate]. unfold cut. assert (0 <= Int_part r)%Z by (apply le_IZR; rewrite E; exact H).
  rewrite INR_IZR_INZ, Z2Nat.id by assumption. symmetry. exact E.
Qed.
Lemma whole_nat : forall n, whole (INR n) = true /\ cut (INR n) = n.
Proof.
  intros n. assert (E : Int_part (INR n) = Z.of_nat n) by (apply floor_unique; rewrite <- INR_IZR_INZ; lra). unfold whole, cut. rewrite E, <- INR_IZR_INZ. destruct (Req_EM_T (INR n) (INR n)); [|contradiction]. split; [reflexivity|apply Nat2Z.id].
Qed.
Lemma sinc_whole : forall k : Z, Sc_Model.sinc (IZR k) = if (k =? 0)%Z then 1 else 0.
Proof. exact Sc_Proofs.sinc_integer. Qed.

(** Picking a single sample *)
Lemma pick : forall n (f : nat -> C) (g : nat -> R) k, (k < n)%nat -> (forall i, (i < n)%nat -> g i = if Nat.eqb i k then 1 else 0) -> csum (fun i => f i * RtoC (g i))%C n = f k.
Proof.
  intros n f g k Hk Hg. rewrite (csum_ext _ (fun i => if Nat.eqb i k then f i else RtoC 0)).
  - rewrite csum_pick. destruct (Nat.ltb_spec k n); [reflexivity|lia].
  - intros i Hi. rewrite (Hg i Hi). destruct (Nat.eqb i k); ring.
Qed.
Lemma pick_none : forall n (f : nat -> C) (g : nat -> R), (forall i, (i < n)%nat -> g i = 0) -> csum (fun i => f i * RtoC (g i))%C n = RtoC 0.
Proof. intros n f g Hg. rewrite (csum_ext _ (fun _ => RtoC 0)); [apply csum_0|]. intros i Hi. rewrite (Hg i Hi). ring. Qed.
Lemma sinc_difference : forall i k : nat, Sc_Model.sinc (INR i - INR k) = if Nat.eqb i k then 1 else 0.
Proof.
  intros i k. rewrite !INR_IZR_INZ, <- minus_IZR, sinc_whole. destruct (Nat.eqb_spec i k) as [E|N]; [rewrite E, Z.sub_diag; reflexivity|].
  destruct (Z.eqb_spec (Z.of_nat i - Z.of_nat k) 0); [lia|reflexivity].
Qed.
Lemma resampled_kept : forall n f old new m k, multiple old new m -> (k < n)%nat -> resampled n f old new (m * k) = f k.
Proof.
  intros n f old new m k [Hm [-> Ho]] Hk. unfold resampled. apply pick; [exact Hk|]. intros i Hi. rewrite <- sinc_difference. f_equal. rewrite mult_INR. assert (0 < INR m) by (apply lt_0_INR; lia). field. lra.
Qed.
Lemma resampled_linear : forall n f g h a old new j, (forall i, (i < n)%nat -> h i = a * f i + g i)%C -> resampled n h old new j = (a * resampled n f old new j + resampled n g old new j)%C.
Proof.
  intros n f g h a old new j H. unfold resampled. rewrite <- csum_scal, <- csum_plus. apply csum_ext. intros i Hi. rewrite (H i Hi). ring.
Qed.

(** Which branch is taken *)
Lemma resample_up : forall rt old new b, 0 < old -> old < new -> (1 <= samples b)%nat -> (1 <= streams b)%nat ->
  resample_block rt old new false b = Ok (Blk (streams b) (resampled_count (samples b) old new) (Z.to_nat (rint (INR (offset b) * new / old))) (fun r => resampled (samples b) (x b r) old new)).
Proof.
  intros rt old new b Ho Hn Hs Ht. unfold resample_block. destruct (Rle_dec old 0); [lra|]. destruct (Rle_dec new 0); [lra|]. destruct (Req_EM_T old new); [lra|].
  destruct (Nat.ltb_spec (samples b) 1); [lia|]. destruct (Nat.ltb_spec (streams b) 1); [lia|]. destruct (Rlt_dec new old); [lra|]. reflexivity.
Qed.
Lemma resample_fraction : forall rt old new b, 0 < new -> new < old -> whole (old / new) = false -> (1 <= samples b)%nat -> (1 <= streams b)%nat ->
  resample_block rt old new false b = Ok (Blk (streams b) (resampled_count (samples b) old new) (Z.to_nat (rint (INR (offset b) * new / old))) (fun r => resampled (samples b) (x b r) old new)).
Proof.
  intros rt old new b Ho Hn W Hs Ht. unfold resample_block. destruct (Rle_dec old 0); [lra|]. destruct (Rle_dec new 0); [lra|]. destruct (Req_EM_T old new); [lra|].
  destruct (Nat.ltb_spec (samples b) 1); [lia|]. destruct (Nat.ltb_spec (streams b) 1); [lia|]. destruct (Rlt_dec new old); [|lra]. rewrite W. reflexivity.
Qed.
Lemma ceil_near : forall n q, (1 <= q)%nat -> INR n / INR q <= INR (ceil_div n q) < INR n / INR q + 1.
Proof.
  intros n q Hq. assert (P : 0 < INR q) by (apply lt_0_INR; lia). assert (S1 : (n <= ceil_div n q * q)%nat /\ (ceil_div n q * q < n + q)%nat).
  { unfold ceil_div. assert (D := Nat.div_mod_eq (n + (q - 1)) q). assert (M := Nat.mod_upper_bound (n + (q - 1)) q). nia. }
  destruct S1 as [A B]. apply le_INR in A. apply lt_INR in B. rewrite mult_INR in A, B. rewrite plus_INR in B. split.
  - apply (Rmult_le_reg_r (INR q)); [exact P|]. unfold Rdiv. rewrite Rmult_assoc, Rinv_l by lra. lra.
  - apply (Rmult_lt_reg_r (INR q)); [exact P|]. rewrite Rmult_plus_distr_r. unfold Rdiv. rewrite (Rmult_assoc _ (/ INR q)), Rinv_l by lra. lra.
Qed.
(** Samples and offsets of what comes out *)
Lemma resample_size : forall rt old new f b c, old <> new -> (1 <= samples b)%nat -> resample_block rt old new f b = Ok c ->
  0 < old /\ 0 < new /\ streams c = streams b /\
  INR (offset b) * new / old - 1 / 2 <= INR (offset c) <= INR (offset b) * new / old + 1 / 2 /\ INR (samples b) * new / old - 1 < INR (samples c) < INR (samples b) * new / old + 1.
Proof.
  intros rt old new f b c Hne Hs E. unfold resample_block in E. destruct (Rle_dec old 0); [discriminate|]. destruct (Rle_dec new 0); [discriminate|]. destruct (Req_EM_T old new); [contradiction|].
  destruct (Nat.ltb_spec (samples b) 1); [lia|]. split; [lra|]. split; [lra|].
  assert (Q : forall w, 0 <= INR w * new / old).
  { intros w. assert (0 <= INR w) by apply pos_INR. apply Rmult_le_pos; [apply Rmult_le_pos; lra|]. apply Rlt_le, Rinv_0_lt_compat. lra. }
  assert (R1 := rounded _ (Q (offset b))). assert (R2 := rounded _ (Q (samples b))). fold (resampled_count (samples b) old new) in R2.
  destruct (Nat.ltb_spec (streams b) 1) as [Z|Z].
  - injection E as <-. cbn [streams offset samples]. split; [lia|]. split; [lra|]. assert (C1 := cut_spec _ (Q (samples b))). lra.
  - destruct (Rlt_dec new old) as [D|D]; cbn [andb] in E.
    + destruct (whole (old / new)) eqn:W.
      * destruct (Nat.leb_spec (samples b) padding); [discriminate|]. injection E as <-. cbn [streams offset samples]. split; [reflexivity|]. split; [lra|].
        assert (P : 0 <= old / new) by (apply Rmult_le_pos; [lra|apply Rlt_le, Rinv_0_lt_compat; lra]). assert (V := whole_spec _ P W). set (q := cut (old / new)) in *.
        assert (Hq : (1 <= q)%nat) by (destruct q; [exfalso; cbn [INR] in V; apply (Rmult_eq_compat_r new) in V; unfold Rdiv in V; rewrite Rmult_assoc, Rinv_l in V by lra; lra|lia]).
        assert (N := ceil_near (samples b) q Hq). rewrite <- V in N. replace (INR (samples b) / (old / new)) with (INR (samples b) * new / old) in N by (field; lra). lra.
      * destruct f; cbn [andb] in E; [destruct (Nat.leb_spec (samples b) padding); [discriminate|]|]; injection E as <-; cbn [streams offset samples]; (split; [reflexivity|]; lra).
    + rewrite andb_false_r in E. destruct f; [destruct (Nat.leb_spec (resampled_count (samples b) old new) padding); [discriminate|]|]; injection E as <-; cbn [streams offset samples]; (split; [reflexivity|]; lra).
Qed.

(** Mixing *)
Lemma turned_cis : forall t, turned t = cis (2 * PI * t).
Proof. reflexivity. Qed.
Lemma turned_add : forall a b, turned (a + b) = (turned a * turned b)%C.
Proof. intros. rewrite !turned_cis. replace (2 * PI * (a + b)) with (2 * PI * a + 2 * PI * b) by ring. apply cis_add. Qed.
Lemma mixed : forall rt rate target carrier b, 0 < rate -> 0 < Rabs (target - carrier) < rate ->
  let d := (target - carrier) / rate in
  superimpose_to rt rate target rate carrier b = Ok (Blk (streams b) (samples b) (offset b) (fun r i =>
    (convolved (fun k => RtoC (fir rt (1 / 2 * (rate - Rabs (target - carrier))) rate k) * turned (d / 2 * INR k))%C (samples b) (x b r) i * turned (- (d * INR i)))%C)).
Proof.
  intros rt rate target carrier b Hr Hd d. unfold superimpose_to. destruct (Rle_dec rate 0); [lra|]. destruct (Req_EM_T rate rate); [|contradiction].
  destruct (Req_EM_T target carrier) as [E|_]; [exfalso; rewrite E, Rminus_eq_0, Rabs_R0 in Hd; lra|]. cbv zeta.
  replace (1 / 2 * (rate + rate) - Rabs (target - carrier)) with (rate - Rabs (target - carrier)) by field.
  destruct (Rle_dec (rate - Rabs (target - carrier)) 0); [lra|]. destruct (Rle_dec (rate / 2) (1 / 2 * (rate - Rabs (target - carrier)))); [lra|].
  do 2 f_equal. apply functional_extensionality. intros r. apply functional_extensionality. intros i. f_equal.
  - unfold convolved. apply csum_ext. intros k _. do 2 f_equal. rewrite turned_cis. f_equal. unfold d. field. lra.
  - rewrite turned_cis. f_equal. unfold d. field. lra.
Qed.
