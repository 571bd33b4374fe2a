From Coq Require Import Arith Reals Lra Lia.
From Coquelicot Require Import Complex.
From Verif Require Import Base Cplx Cplx_Proofs Eqz_Model Eqz_Spec.
Open Scope C_scope.

Lemma mul_vec n m A B (x : nat -> C) i :
  csum (fun j => mul n A B i j * x j) m = csum (fun k => A i k * csum (fun j => B k j * x j) m) n.
Proof.
  unfold mul. rewrite (csum_ext _ (fun j => csum (fun k => A i k * B k j * x j) n)).
  - rewrite csum_swap. apply csum_ext. intros k _. rewrite <- csum_scal. apply csum_ext. intros; ring.
  - intros j _. symmetry. apply (csum_scal_r (x j) (fun k => A i k * B k j) n).
Qed.

Lemma csum_conj f n : Cconj (csum f n) = csum (fun i => Cconj (f i)) n.
Proof.
  induction n as [|n IH]; cbn [csum].
  - unfold Cconj, RtoC. cbn. f_equal. ring.
  - rewrite <- IH. unfold Cconj, Cplus. cbn. f_equal. ring.
Qed.
Lemma conj_mul a b : Cconj (a * b) = Cconj a * Cconj b.
Proof. unfold Cconj, Cmult. cbn. f_equal; ring. Qed.
Lemma conj_conj a : Cconj (Cconj a) = a.
Proof. destruct a. unfold Cconj. cbn. f_equal. ring. Qed.

(** Left inverse on what is transmitted *)
Lemma left_inverse r c A P : pseudo_inverse r c A P -> distinguishes r c A ->
  forall (x : nat -> C) t, (t < c)%nat -> csum (fun i => P t i * csum (fun k => A i k * x k) c) r = x t.
Proof.
  intros (H & _) D x. apply (D (fun t => csum (fun i => P t i * csum (fun k => A i k * x k) c) r) x). intros i Hi. cbv beta.
  rewrite <- (mul_vec c r A P (fun j => csum (fun k => A j k * x k) c) i).
  rewrite <- (mul_vec r c (fun a b => mul c A P a b) A x i).
  apply csum_ext. intros j Hj. rewrite (H i j Hi Hj). reflexivity.
Qed.

(** Normal equations *)
Lemma normal r c A P : pseudo_inverse r c A P -> forall (y : nat -> C) t, (t < c)%nat ->
  csum (fun i => Cconj (A i t) * (csum (fun k => A i k * csum (fun j => P k j * y j) r) c)) r = csum (fun i => Cconj (A i t) * y i) r.
Proof.
  intros (H1 & _ & H3 & _) y t Ht.
  rewrite (csum_ext _ (fun i => Cconj (A i t) * csum (fun j => mul c A P i j * y j) r)).
  2: { intros i _. rewrite mul_vec. reflexivity. }
  rewrite (csum_ext _ (fun i => csum (fun j => Cconj (A i t) * (mul c A P i j * y j)) r)).
  2: { intros i _. rewrite csum_scal. reflexivity. }
  rewrite csum_swap. apply csum_ext. intros j Hj.
  rewrite (csum_ext _ (fun i => Cconj (mul c A P j i * A i t) * y j)).
  2: { intros i Hi. rewrite conj_mul. specialize (H3 i j Hi Hj). unfold conj in H3. rewrite H3. ring. }
  rewrite (csum_scal_r (y j) (fun i => Cconj (mul c A P j i * A i t)) r), <- csum_conj. f_equal. f_equal.
  apply (H1 j t Hj Ht).
Qed.
