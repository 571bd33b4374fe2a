From Coq Require Import List Reals Bool Arith Lia Lra.
From Coquelicot Require Import Complex.
From Verif Require Import Base BaseLemmas Cplx Cplx_Proofs Chan_Model Chan_Spec Chan_Proofs Iso_Model Iso_Spec.
Import ListNotations.
Open Scope R_scope.

Lemma esum_finite : forall f g n, (forall k, (k < n)%nat -> f k = Some (g k)) -> esum f n = Some (csum g n).
Proof.
  intros f g n. induction n as [|n IH]; intro H; cbn [esum csum]; [reflexivity|].
  rewrite IH by (intros; apply H; lia). rewrite H by lia. reflexivity.
Qed.
Lemma esum_none : forall f n k, (k < n)%nat -> f k = None -> esum f n = None.
Proof.
  intros f n k. induction n as [|n IH]; intros Hk Hf; [lia|]. cbn [esum].
  destruct (Nat.eq_dec k n) as [->|Hn]; [rewrite Hf; destruct (esum f n); reflexivity|]. rewrite IH by (auto; lia). reflexivity.
Qed.
Lemma apply_ok : forall m b, cols m = streams b ->
  apply m b = Ok (XBlk (rows m) (samples b) (offset b) (fun i j => esum (fun k => times (e m i k) (Some (x b k j))) (cols m))).
Proof. intros m b H. unfold apply, matmul. cbn [finite_block rows cols]. rewrite H, Nat.eqb_refl. reflexivity. Qed.
Lemma apply_combines : forall m b w, cols m = streams b -> (forall i t, (i < rows m)%nat -> (t < cols m)%nat -> e m i t = Some (w i t)) ->
  exists y, apply m b = Ok y /\ combines w (rows m) b y /\ x_offset y = offset b.
Proof.
  intros m b w H Hw. rewrite apply_ok by exact H. eexists. split; [reflexivity|]. split; [|reflexivity]. split; [reflexivity|]. split; [reflexivity|].
  intros i j Hi Hj. cbn [x_at]. rewrite <- H. apply esum_finite. intros k Hk. rewrite Hw by auto. reflexivity.
Qed.
Lemma mapM_apply : forall m w l, (forall i t, (i < rows m)%nat -> (t < cols m)%nat -> e m i t = Some (w i t)) -> Forall (fun b => streams b = cols m) l ->
  exists ys, mapM (apply m) l = Ok ys /\ Forall2 (fun b y => combines w (rows m) b y /\ x_offset y = offset b) l ys.
Proof.
  intros m w l Hw. induction l as [|b l IH]; intro HF; [exists []; split; constructor|].
  inversion HF as [|b' l' Hb Hl]; subst b' l'. destruct (IH Hl) as [ys [E F]].
  destruct (apply_combines m b w (eq_sym Hb) Hw) as [y [Ey Cy]].
  exists (y :: ys). cbn [mapM]. rewrite Ey. cbn [bind]. rewrite E. cbn [bind]. split; [reflexivity|]. constructor; auto.
Qed.
Lemma power_neg_half_pos : forall r, 0 < r -> power_neg_half r = Some (RtoC (/ sqrt r)).
Proof. intros r H. unfold power_neg_half. destruct (Rlt_dec 0 r); [reflexivity|contradiction]. Qed.
Lemma power_neg_half_none : forall r, r <= 0 -> power_neg_half r = None.
Proof. intros r H. unfold power_neg_half. destruct (Rlt_dec 0 r); [lra|reflexivity]. Qed.
Lemma power_half_nn : forall r, 0 <= r -> power_half r = Some (RtoC (sqrt r)).
Proof. intros r H. unfold power_half. destruct (Rle_dec 0 r); [reflexivity|contradiction]. Qed.
Lemma assert_ok : forall d s, n_tx d = s_streams s -> assert_leaking (Some d) (Some s) = Ok (d, s).
Proof. intros d s H. unfold assert_leaking. rewrite H, Nat.eqb_refl. reflexivity. Qed.
Lemma fold_csum : forall (f : nat -> C) n, fold_left (fun acc t => (acc + f t)%C) (seq 0 n) (RtoC 0) = csum f n.
Proof. intros f n. induction n as [|n IH]; [reflexivity|]. rewrite seq_S, fold_left_app, IH. reflexivity. Qed.
