From Coq Require Import List Arith ZArith Lia Reals Lra Bool.
From Coquelicot Require Import Complex.
From Verif Require Import Base BaseLemmas Cplx Cplx_Proofs Corr_Model Corr_Spec.
Import ListNotations.
Local Open Scope nat_scope.

Lemma Int_part_bounds : forall x, (IZR (Int_part x) <= x < IZR (Int_part x) + 1)%R.
Proof. intro x. destruct (base_Int_part x). lra. Qed.

Lemma round_even_nearest : forall x, nearest x (round_even x).
Proof.
  intro x. unfold round_even, nearest. pose proof (Int_part_bounds x) as B. set (f := Int_part x) in *.
  destruct (Rlt_dec (x - IZR f) (1 / 2)) as [H|H]; [left; apply Rabs_def1; lra|].
  destruct (Rlt_dec (1 / 2) (x - IZR f)) as [H'|H']; [left; rewrite plus_IZR; apply Rabs_def1; lra|].
  assert (E : (x - IZR f = 1 / 2)%R) by lra. right. destruct (Z.even f) eqn:V.
  - split; [rewrite E; apply Rabs_right; lra|exact V].
  - split; [|rewrite Z.even_add, V; reflexivity]. rewrite plus_IZR. replace (x - (IZR f + 1))%R with (- (1 / 2))%R by lra. rewrite Rabs_Ropp. apply Rabs_right. lra.
Qed.
Lemma nearest_unique : forall x a b, nearest x a -> nearest x b -> a = b.
Proof.
  assert (S : forall x a b, nearest x a -> nearest x b -> (a < b)%Z -> False).
  { intros x a b Ha Hb L. assert (Q : (IZR a + 1 <= IZR b)%R) by (rewrite <- plus_IZR; apply IZR_le; lia).
    assert (A : (Rabs (x - IZR a) <= 1 / 2)%R) by (destruct Ha as [Ha|[Ha _]]; lra). assert (B : (Rabs (x - IZR b) <= 1 / 2)%R) by (destruct Hb as [Hb|[Hb _]]; lra).
    assert (A' : (- (1 / 2) <= x - IZR a <= 1 / 2)%R) by (revert A; unfold Rabs; destruct (Rcase_abs _); lra).
    assert (B' : (- (1 / 2) <= x - IZR b <= 1 / 2)%R) by (revert B; unfold Rabs; destruct (Rcase_abs _); lra).
    assert (E : (x - IZR a = 1 / 2)%R) by lra. assert (F : (x - IZR b = - (1 / 2))%R) by lra.
    assert (G : b = (a + 1)%Z) by (apply eq_IZR; rewrite plus_IZR; lra).
    destruct Ha as [Ha|[_ Va]]; [rewrite E, Rabs_right in Ha; lra|]. destruct Hb as [Hb|[_ Vb]]; [rewrite F, Rabs_Ropp, Rabs_right in Hb; lra|].
    subst b. rewrite Z.even_add, Va in Vb. discriminate. }
  intros x a b Ha Hb. destruct (Z.lt_trichotomy a b) as [L|[E|L]]; [exfalso; eauto|exact E|exfalso; eauto].
Qed.
Lemma round_even_pos : forall x, (1 / 2 < x)%R -> (1 <= round_even x)%Z.
Proof.
  intros x H. destruct (Z.le_gt_cases 1 (round_even x)) as [L|L]; [exact L|]. exfalso. pose proof (round_even_nearest x) as N.
  assert (Q : (IZR (round_even x) <= 0)%R) by (apply IZR_le; lia). assert (A : (Rabs (x - IZR (round_even x)) <= 1 / 2)%R) by (destruct N as [N|[N _]]; lra).
  rewrite Rabs_right in A; lra.
Qed.
Lemma round_even_zero : forall x, (0 <= x <= 1 / 2)%R -> round_even x = 0%Z.
Proof.
  intros x H. apply (nearest_unique x); [apply round_even_nearest|]. unfold nearest. rewrite Rminus_0_r, Rabs_right by lra. destruct (Req_dec x (1 / 2)); [right; split; [assumption|reflexivity]|left; lra].
Qed.

Lemma truncate_nonneg : forall x, (0 <= x)%R -> truncate x = Int_part x.
Proof. intros x H. unfold truncate. destruct (Rlt_dec x 0); [lra|reflexivity]. Qed.
Lemma truncate_neg : forall x, (x < 0)%R -> (truncate x <= 0)%Z.
Proof.
  intros x H. unfold truncate. destruct (Rlt_dec x 0); [|lra]. pose proof (Int_part_bounds (- x)). assert (Q : (IZR (-1) < IZR (Int_part (- x)))%R) by lra. apply lt_IZR in Q. lia.
Qed.
(** When the window has two samples or more, the pulse lies inside and not at its start *)
Lemma window : forall x, (1 < truncate (2 * x))%Z -> (0 < x)%R /\ (1 <= truncate x)%Z /\ (truncate x < truncate (2 * x))%Z.
Proof.
  intros x H. destruct (Rlt_dec x 0) as [N|N]. { assert (Q : (2 * x < 0)%R) by lra. apply truncate_neg in Q. lia. }
  rewrite truncate_nonneg in H by lra. rewrite (truncate_nonneg x), (truncate_nonneg (2 * x)) by lra. pose proof (Int_part_bounds (2 * x)). pose proof (Int_part_bounds x).
  assert (G : (2 <= 2 * x)%R). { apply Rle_trans with (IZR (Int_part (2 * x))); [apply IZR_le; lia|lra]. }
  assert (A : (1 <= Int_part x)%Z). { assert (Q : (IZR 0 < IZR (Int_part x))%R) by lra. apply lt_IZR in Q. lia. }
  split; [lra|]. split; [exact A|]. assert (Q : (2 * IZR (Int_part x) < IZR (Int_part (2 * x)) + 1)%R) by lra. rewrite <- mult_IZR, <- plus_IZR in Q. apply lt_IZR in Q. lia.
Qed.

(** ** Largest entries *)
Lemma cless_irrefl : forall x, cless x x = false.
Proof. intro x. unfold cless. destruct (Rlt_dec (fst x) (fst x)); [lra|]. destruct (Rlt_dec (snd x) (snd x)); [lra|reflexivity]. Qed.
Lemma above_less : forall g, above_zero g -> cless (RtoC 0) g = true /\ cless g (RtoC 0) = false.
Proof. intros [a b] H. unfold above_zero, cless, RtoC in *. cbn [fst snd] in *. destruct (Rlt_dec 0 a), (Rlt_dec a 0), (Rlt_dec 0 b), (Rlt_dec b 0); split; try reflexivity; exfalso; lra. Qed.
Lemma below_less : forall g, below_zero g -> cless g (RtoC 0) = true /\ cless (RtoC 0) g = false.
Proof. intros [a b] H. unfold below_zero, cless, RtoC in *. cbn [fst snd] in *. destruct (Rlt_dec 0 a), (Rlt_dec a 0), (Rlt_dec 0 b), (Rlt_dec b 0); split; try reflexivity; exfalso; lra. Qed.
Lemma argmax_from_skip : forall l best k i, Forall (fun x => cless best x = false) l -> argmax_from best k i l = k.
Proof. induction l as [|x t IH]; intros best k i H; cbn [argmax_from]; [reflexivity|]. inversion H; subst. rewrite H2. apply IH. assumption. Qed.
Lemma argmax_from_app : forall l l' best k i, Forall (fun x => cless best x = false) l -> argmax_from best k i (l ++ l') = argmax_from best k (length l + i) l'.
Proof.
  induction l as [|x t IH]; intros l' best k i H; cbn [app length Nat.add argmax_from]; [reflexivity|]. inversion H; subst. rewrite H2. rewrite IH by assumption. f_equal. lia.
Qed.
(** The first of entries that no entry exceeds, and that exceeds the entries before it, which are equal *)
Lemma argmax_found : forall a z g t, cless z g = true -> Forall (fun x => cless g x = false) t -> argmax (repeat z a ++ g :: t) = Ok a.
Proof.
  intros a z g t H T. destruct a as [|a]; cbn [repeat app argmax].
  - f_equal. apply argmax_from_skip. exact T.
  - f_equal. rewrite argmax_from_app.
    + rewrite repeat_length. cbn [argmax_from]. rewrite H. rewrite argmax_from_skip by exact T. lia.
    + clear. induction a; constructor; [apply cless_irrefl|assumption].
Qed.
Lemma argmax_first : forall z l, Forall (fun x => cless z x = false) l -> argmax (z :: l) = Ok 0.
Proof. intros z l H. cbn [argmax]. f_equal. apply argmax_from_skip. exact H. Qed.

Lemma dirac_rows : forall ports n m, dirac ports n m None = repeat (map (fun j => if j =? m then RtoC 1 else RtoC 0) (seq 0 n)) ports.
Proof.
  intros ports n m. unfold dirac. cbn [selected andb]. generalize (map (fun j => if j =? m then RtoC 1 else RtoC 0) (seq 0 n)) as row. intro row. generalize 0. induction ports as [|p IH]; intro s; cbn [seq map repeat]; [reflexivity|]. f_equal. apply IH.
Qed.
Lemma echo_dirac : forall k g n m, m + k < n -> echo k g (map (fun j => if j =? m then RtoC 1 else RtoC 0) (seq 0 n)) = repeat (RtoC 0) (m + k) ++ g :: repeat (RtoC 0) (n - m - k - 1).
Proof.
  intros k g n m H. unfold echo. rewrite map_length, seq_length. apply nth_ext with (d := RtoC 0) (d' := RtoC 0).
  - rewrite map_length, seq_length, app_length. cbn [length]. rewrite !repeat_length. lia.
  - rewrite map_length, seq_length. intros j Hj. match goal with |- nth j (map ?f _) _ = _ => rewrite (nth_indep _ (RtoC 0) (f 0)) by (rewrite map_length, seq_length; exact Hj); rewrite (map_nth f) end.
    rewrite seq_nth by exact Hj. cbn [Nat.add].
    assert (V : forall i, i < n -> nth i (map (fun j0 => if j0 =? m then RtoC 1 else RtoC 0) (seq 0 n)) (RtoC 0) = if i =? m then RtoC 1 else RtoC 0).
    { intros i Hi. rewrite (nth_indep _ (RtoC 0) ((fun j0 => if j0 =? m then RtoC 1 else RtoC 0) 0)) by (rewrite map_length, seq_length; exact Hi). rewrite (map_nth (fun j0 => if j0 =? m then RtoC 1 else RtoC 0)), seq_nth by exact Hi. reflexivity. }
    destruct (Nat.lt_trichotomy j (m + k)) as [L|[E|L]].
    + rewrite app_nth1 by (rewrite repeat_length; exact L). rewrite nth_repeat. destruct (Nat.ltb_spec j k); [reflexivity|]. rewrite V by lia. destruct (Nat.eqb_spec (j - k) m); [lia|]. apply Cmult_0_r.
    + rewrite app_nth2 by (rewrite repeat_length; lia). rewrite repeat_length, E, Nat.sub_diag. cbn [nth]. destruct (Nat.ltb_spec (m + k) k); [lia|]. rewrite V by lia. destruct (Nat.eqb_spec (m + k - k) m); [|lia]. apply Cmult_1_r.
    + rewrite app_nth2 by (rewrite repeat_length; lia). rewrite repeat_length. destruct (j - (m + k)) as [|u] eqn:U; [lia|]. cbn [nth]. rewrite nth_repeat.
      destruct (Nat.ltb_spec j k); [reflexivity|]. rewrite V by lia. destruct (Nat.eqb_spec (j - k) m); [lia|]. apply Cmult_0_r.
Qed.
Lemma mapM_const : forall {A B} (f : A -> result B) (b : B) l, (forall a, In a l -> f a = Ok b) -> mapM f l = Ok (repeat b (length l)).
Proof.
  intros A B f b l. induction l as [|x t IH]; intro H; cbn [mapM length repeat]; [reflexivity|]. rewrite H by (left; reflexivity). cbn [bind]. rewrite IH by (intros a Ha; apply H; right; exact Ha). reflexivity.
Qed.
Lemma sum_repeat : forall a n, fold_right Nat.add 0 (repeat a n) = n * a.
Proof. intros a n. induction n as [|n IH]; cbn [repeat fold_right Nat.mul]; [reflexivity|]. rewrite IH. reflexivity. Qed.
(** If every iteration finds the same index, the estimate is its distance from the pulse *)
Lemma estimate_constant : forall trigger tx fs max_delay its wait tx_sel rx_sel idx, 1 <= its -> (0 <= wait)%R -> (1 < truncate (2 * max_delay * fs))%Z -> ports_ok tx_sel tx = true ->
  (forall it, it < its -> exists r, rows_of rx_sel (trigger it (dirac tx (Z.to_nat (truncate (2 * max_delay * fs))) (Z.to_nat (truncate (max_delay * fs))) tx_sel)) = Ok r /\ argmax (concat r) = Ok idx) ->
  estimate_delay trigger tx fs max_delay its wait tx_sel rx_sel = Ok ((INR idx - INR (Z.to_nat (truncate (max_delay * fs)))) / fs)%R.
Proof.
  intros trigger tx fs md its wait ts rs idx Hi Hw Hn Hp H. unfold estimate_delay. destruct (Nat.ltb_spec its 1); [lia|]. destruct (Rlt_dec wait 0); [lra|]. destruct (Z.leb_spec (truncate (2 * md * fs)) 1); [lia|].
  rewrite Hp. cbn [negb]. rewrite (mapM_const _ idx).
  - cbn [bind]. rewrite sum_repeat, seq_length, mult_INR. do 3 f_equal. field. apply not_0_INR. lia.
  - intros it Hit. apply in_seq in Hit. destruct (H it) as (r & -> & E); [lia|]. exact E.
Qed.

(** ** Antenna weights *)
Lemma RtoC_neq : forall x, (x <> 0)%R -> RtoC x <> RtoC 0.
Proof. intros x H E. apply H. exact (RtoC_inj _ _ E). Qed.
Lemma mean_const : forall (f : nat -> C) c n, 0 < n -> (forall m, m < n -> f m = c) -> mean f n = c.
Proof.
  intros f c n Hn H. unfold mean. assert (E : csum f n = (RtoC (INR n) * c)%C).
  { clear Hn. induction n as [|n IH]; [cbn [csum INR]; ring|]. cbn [csum]. rewrite IH by (intros; apply H; lia). rewrite H by lia. rewrite S_INR, RtoC_plus. ring. }
  rewrite E. field. apply RtoC_neq, not_0_INR. lia.
Qed.
