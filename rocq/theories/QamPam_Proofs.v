(** Piecewise linear soft outputs of amplitude modulations are max-log differences. *)
From Coq Require Import Reals List Arith Bool Lia Lra ZArith.
From Verif Require Import Base BaseLemmas Qam_Model.
Import ListNotations.
Open Scope R_scope.

(** Number of bits and soft output constant of the supported amplitude modulations *)
Definition pam_bits (o : nat) : nat := Nat.log2 o.
Definition raw (o : nat) (x : R) : list R :=
  match o with 2%nat => llr2 x | 4%nat => llr4 x | 8%nat => llr8 x | _ => llr16 x end.
Definition supported (o : nat) : Prop := (o = 2 \/ o = 4 \/ o = 8 \/ o = 16)%nat.
Definition kappa (o : nat) : R := match o with 2%nat => 1 / 2 | _ => 1 end.
Definition sq (x : R) : R := x * x.

(** b is closest to x among the patterns whose k-th bit is v *)
Definition closest (o : nat) (x : R) (k : nat) (v : bool) (b : list bool) (p : R) : Prop :=
  length b = pam_bits o /\ nth k b false = v /\ pam o b = Ok p /\
  forall b' p', length b' = pam_bits o -> nth k b' false = v -> pam o b' = Ok p' -> sq (x - p) <= sq (x - p').

Definition pamZ (o : nat) (bits : list bool) : Z :=
  let b i := if nth i bits false then 1%Z else 0%Z in
  match o with
  | 2%nat => 1 - 2 * b 0%nat
  | 4%nat => (1 - 2 * b 0%nat) * (1 + 2 * b 1%nat)
  | 8%nat => (2 * b 0%nat - 1) * ((1 - 2 * b 1%nat) * (1 + 2 * b 2%nat) - 4)
  | _ => (((1 - 2 * b 2%nat) * (1 + 2 * b 3%nat) - 4) * (-1 + 2 * b 1%nat) - 8) * (-1 + 2 * b 0%nat)
  end%Z.
Fixpoint patterns (n : nat) : list (list bool) :=
  match n with O => [[]] | S m => map (cons false) (patterns m) ++ map (cons true) (patterns m) end.
Definition best (o k : nat) (v : bool) (mid : Z) : list bool :=
  fold_left (fun a b => if (Z.abs (pamZ o b - mid) <? Z.abs (pamZ o a - mid))%Z then b else a)
    (filter (fun b => Bool.eqb (nth k b false) v) (patterns (pam_bits o)))
    (hd [] (filter (fun b => Bool.eqb (nth k b false) v) (patterns (pam_bits o)))).

Lemma rle_true x y : x <= y -> rle x y = true.
Proof. unfold rle. destruct (Rle_dec x y); [reflexivity|contradiction]. Qed.
Lemma rle_false x y : y < x -> rle x y = false.
Proof. unfold rle. destruct (Rle_dec x y); [lra|reflexivity]. Qed.

Ltac decide_rle := repeat match goal with
  | |- context [rle ?a ?b] => first [ rewrite (rle_true a b) by lra | rewrite (rle_false a b) by lra ]
  end.
Ltac all_patterns :=
  let b' := fresh "b" in let p' := fresh "p" in
  intros b' p' ? ? ?;
  repeat (destruct b' as [|[|] b']; try discriminate);
  match goal with H : pam _ _ = Ok _ |- _ => cbn in H; apply (f_equal (fun r => match r with Ok v => v | Raise _ => 0 end)) in H; subst p' end;
  try discriminate; unfold sq; cbn; lra.
Ltac region o k mid :=
  let b0 := eval vm_compute in (best o k false mid) in
  let b1 := eval vm_compute in (best o k true mid) in
  exists b0, b1; do 2 eexists;
  split; [split; [reflexivity|]; split; [reflexivity|]; split; [reflexivity|]; all_patterns|];
  split; [split; [reflexivity|]; split; [reflexivity|]; split; [reflexivity|]; all_patterns|];
  cbn [raw nth llr2 llr4 llr8 llr16 kappa b2r]; unfold both, rgt; decide_rle; cbn [negb andb ind]; unfold sq; cbn; lra.

Lemma pam2_max_log x k : (k < 1)%nat -> exists b0 b1 p0 p1, closest 2 x k false b0 p0 /\ closest 2 x k true b1 p1 /\
  nth k (raw 2 x) 0 = kappa 2 * (sq (x - p0) - sq (x - p1)).
Proof. intro H. destruct k as [|k]; [|lia]. region 2%nat 0%nat 0%Z. Qed.
Lemma pam4_max_log x k : (k < 2)%nat -> exists b0 b1 p0 p1, closest 4 x k false b0 p0 /\ closest 4 x k true b1 p1 /\
  nth k (raw 4 x) 0 = kappa 4 * (sq (x - p0) - sq (x - p1)).
Proof.
  intro H.
  destruct (Rle_dec x (-2)); [destruct k as [|[|k]]; [region 4%nat 0%nat (-3)%Z|region 4%nat 1%nat (-3)%Z|lia]|].
  destruct (Rle_dec x 0); [destruct k as [|[|k]]; [region 4%nat 0%nat (-1)%Z|region 4%nat 1%nat (-1)%Z|lia]|].
  destruct (Rle_dec x 2); [destruct k as [|[|k]]; [region 4%nat 0%nat 1%Z|region 4%nat 1%nat 1%Z|lia]|].
  destruct k as [|[|k]]; [region 4%nat 0%nat 3%Z|region 4%nat 1%nat 3%Z|lia].
Qed.
Lemma pam8_max_log x k : (k < 3)%nat -> exists b0 b1 p0 p1, closest 8 x k false b0 p0 /\ closest 8 x k true b1 p1 /\
  nth k (raw 8 x) 0 = kappa 8 * (sq (x - p0) - sq (x - p1)).
Proof.
  intro H.
  Local Ltac each8 mid := match goal with H : (?k < 3)%nat |- _ =>
    destruct k as [|[|[|k]]]; [region 8%nat 0%nat mid|region 8%nat 1%nat mid|region 8%nat 2%nat mid|lia] end.
  destruct (Rle_dec x (-6)); [each8 (-7)%Z|]. destruct (Rle_dec x (-4)); [each8 (-5)%Z|].
  destruct (Rle_dec x (-2)); [each8 (-3)%Z|]. destruct (Rle_dec x 0); [each8 (-1)%Z|].
  destruct (Rle_dec x 2); [each8 1%Z|]. destruct (Rle_dec x 4); [each8 3%Z|].
  destruct (Rle_dec x 6); [each8 5%Z|]. each8 7%Z.
Qed.
Lemma pam16_max_log x k : (k < 4)%nat -> exists b0 b1 p0 p1, closest 16 x k false b0 p0 /\ closest 16 x k true b1 p1 /\
  nth k (raw 16 x) 0 = kappa 16 * (sq (x - p0) - sq (x - p1)).
Proof.
  intro H.
  Local Ltac each16 mid := match goal with H : (?k < 4)%nat |- _ =>
    destruct k as [|[|[|[|k]]]]; [region 16%nat 0%nat mid|region 16%nat 1%nat mid|region 16%nat 2%nat mid|region 16%nat 3%nat mid|lia] end.
  destruct (Rle_dec x (-14)); [each16 (-15)%Z|]. destruct (Rle_dec x (-12)); [each16 (-13)%Z|].
  destruct (Rle_dec x (-10)); [each16 (-11)%Z|]. destruct (Rle_dec x (-8)); [each16 (-9)%Z|].
  destruct (Rle_dec x (-6)); [each16 (-7)%Z|]. destruct (Rle_dec x (-4)); [each16 (-5)%Z|].
  destruct (Rle_dec x (-2)); [each16 (-3)%Z|]. destruct (Rle_dec x 0); [each16 (-1)%Z|].
  destruct (Rle_dec x 2); [each16 1%Z|]. destruct (Rle_dec x 4); [each16 3%Z|].
  destruct (Rle_dec x 6); [each16 5%Z|]. destruct (Rle_dec x 8); [each16 7%Z|].
  destruct (Rle_dec x 10); [each16 9%Z|]. destruct (Rle_dec x 12); [each16 11%Z|].
  destruct (Rle_dec x 14); [each16 13%Z|]. each16 15%Z.
Qed.
Lemma pam_max_log o x k : supported o -> (k < pam_bits o)%nat ->
  exists b0 b1 p0 p1, closest o x k false b0 p0 /\ closest o x k true b1 p1 /\
    nth k (raw o x) 0 = kappa o * (sq (x - p0) - sq (x - p1)).
Proof.
  intros [->|[->|[->| ->]]] H; [apply pam2_max_log|apply pam4_max_log|apply pam8_max_log|apply pam16_max_log]; exact H.
Qed.
