(** C60: kinematic chains. *)
From Coq Require Import List Arith Bool ZArith Lia.
From Verif Require Import Base BaseLemmas Kin_Model Kin_Spec Kin_Proofs.
Import ListNotations.

(** * C60 *)
(** Over any program of moves, attachments, detachments and queries, every query returns the product of the current poses along
    the current chain, as if nothing were cached *)
Theorem C60_caches_are_transparent : forall T mul inv (one : T) root limit places l,
  0 < limit -> sound T root limit (mkWorld T places (fun _ => None)) l ->
  answers T mul inv one root (mkWorld T places (fun _ => None)) l (perform_all T mul inv one root limit (detached T places) l).
Proof.
  intros T mul inv one root limit places l Hl Hs. apply perform_all_spec; [apply detached_shallow; exact Hl|apply detached_coherent|exact Hs].
Qed.
Print Assumptions C60_caches_are_transparent.

(** The transformation of a frame is determined by poses and attachments *)
Theorem C60_transformation_is_determined : forall T mul (one : T) root w x t u, global T mul one root w x t -> global T mul one root w x u -> t = u.
Proof. intros T mul one root w x t u H1 H2. eapply global_fun; eassumption. Qed.
Print Assumptions C60_transformation_is_determined.

(** If transformations form a group, local coordinates compose with the frame's transformation to the global coordinates *)
Theorem C60_local_coordinates : forall T mul inv (one : T) root w x y t u o,
  (forall a b c, mul a (mul b c) = mul (mul a b) c) -> (forall a, mul one a = a) -> (forall a, mul a (inv a) = one) ->
  global T mul one root w x t -> global T mul one root w y u -> answer T mul inv one root w (LocalFrame T x y) o ->
  exists v, o = Ok (Some v) /\ mul t v = u.
Proof.
  intros T mul inv one root w x y t u o Ha H1 Hi Ht Hu Ho. cbn [answer] in Ho. destruct Ho as [t' [u' [Gt [Gu ->]]]].
  assert (t' = t) by (eapply global_fun; eassumption). assert (u' = u) by (eapply global_fun; eassumption). subst.
  exists (mul (inv t) u). split; [reflexivity|]. rewrite Ha, Hi. apply H1.
Qed.
Print Assumptions C60_local_coordinates.

(** One-dimensional shifts of a scenario (0), two devices (1, 2) and an antenna (3) that changes devices *)
Definition is_scenario (x : nat) : bool := x =? 0.
Definition rig : list (call Z) :=
  [SetBase Z 1 (Some 0); AddLink Z 0 2; SetBase Z 3 (Some 1); Forwards Z 3; Move Z 1 (fun _ => 10%Z); Forwards Z 3; Backwards Z 3;
   LocalFrame Z 2 3; SetBase Z 3 (Some 2); Forwards Z 3; Local Z 3 7%Z; RemoveLink Z 1 3 true; RemoveLink Z 2 3 true; Forwards Z 3].
Lemma chain_shallow : forall w : world Z, (forall x, on Z w x = None \/ exists b, on Z w x = Some b /\ b < x) ->
  (forall x, 3 < x -> on Z w x = None) -> shallow Z 5 w.
Proof.
  intros w H1 H2. assert (Hd : forall n x, x < n -> exists m, m <= x /\ depth Z w x m).
  { intros n. induction n as [|n IH]; intros x Hx; [lia|]. destruct (H1 x) as [E|[b [E Hb]]].
    - exists 0. split; [lia|]. apply D_top. exact E.
    - destruct (IH b) as [m [Hm Hd]]; [lia|]. exists (S m). split; [lia|]. eapply D_step; eassumption. }
  intros x. destruct (Nat.ltb_spec 3 x) as [Hx|Hx].
  - exists 0. split; [lia|]. apply D_top. apply H2. exact Hx.
  - destruct (Hd (S x) x) as [m [Hm Hdm]]; [lia|]. exists m. split; [lia|exact Hdm].
Qed.
Example C60_met : sound Z is_scenario 5 (mkWorld Z Z.of_nat (fun _ => None)) rig /\
  perform_all Z Z.add Z.opp 0%Z is_scenario 5 (detached Z Z.of_nat) rig =
  [Ok None; Ok None; Ok None; Ok (Some 4%Z); Ok None; Ok (Some 13%Z); Ok (Some (-13)%Z); Ok (Some 11%Z); Ok None; Ok (Some 5%Z); Ok (Some 2%Z);
   Raise RuntimeError; Ok None; Ok (Some 3%Z)].
Proof.
  split; [|vm_compute; reflexivity]. unfold rig. cbn [sound proper act].
  assert (Hs : forall w : world Z, (forall x, on Z w x = None \/ exists b, on Z w x = Some b /\ b < x) -> (forall x, 3 < x -> on Z w x = None) -> shallow Z 5 w) by apply chain_shallow.
  repeat split.
  all: try (apply Hs; [intros x; destruct x as [|[|[|[|x]]]]; cbn; try (left; reflexivity); right; eexists; (split; [reflexivity|lia])|
                       intros x Hx; destruct x as [|[|[|[|x]]]]; try lia; reflexivity]).
Qed.

(** Pointing an attached frame at a target in place does not reach the cached transformation *)
Theorem C60_lookat_refuted : exists (s1 s2 s3 : frames Z) (f : Z -> Z) (t : Z),
  perform Z Z.add Z.opp 0%Z is_scenario 5 (detached Z Z.of_nat) (SetBase Z 1 (Some 0)) = Ok (s1, None) /\
  perform Z Z.add Z.opp 0%Z is_scenario 5 s1 (Forwards Z 1) = Ok (s2, Some t) /\ look Z s2 1 f = s3 /\
  (exists s4, perform Z Z.add Z.opp 0%Z is_scenario 5 s3 (Forwards Z 1) = Ok (s4, Some t)) /\ pose Z (s3 1) <> t.
Proof.
  eexists _, _, _, (fun _ => 42%Z), 1%Z. split; [reflexivity|]. split; [reflexivity|]. split; [reflexivity|]. split; [eexists; reflexivity|].
  cbn. discriminate.
Qed.
Print Assumptions C60_lookat_refuted.
(** Assigning the pose to itself afterwards repairs this: together they are a move *)
Theorem C60_lookat_repaired : forall T root limit s x f y,
  match move T root limit (look T s x f) x (fun p => p), move T root limit s x f with
  | Ok s1, Ok s2 => s1 y = s2 y
  | Raise e1, Raise e2 => e1 = e2
  | _, _ => False
  end.
Proof.
  intros T root limit s x f y. unfold move, look.
  set (a := upd T (upd T s x (with_pose T (f (pose T (s x))) (s x))) x
              (with_pose T (pose T (upd T s x (with_pose T (f (pose T (s x))) (s x)) x)) (upd T s x (with_pose T (f (pose T (s x))) (s x)) x))).
  set (b := upd T s x (with_pose T (f (pose T (s x))) (s x))).
  assert (Hab : forall z, a z = b z).
  { intros z. unfold a, b. destruct (Nat.eq_dec z x) as [->|Hz]; [rewrite !upd_eq; reflexivity|rewrite !upd_ne by exact Hz; reflexivity]. }
  clearbody a b. revert x Hab y. clear s f. revert a b. induction limit as [|n IH]; intros a b x Hab y; [reflexivity|].
  cbn [updated]. destruct (root x); [reflexivity|]. rewrite Hab.
  assert (Hup : forall z, upd T a x (without_cache T (b x)) z = upd T b x (without_cache T (b x)) z).
  { intros z. destruct (Nat.eq_dec z x) as [->|Hz]; [rewrite !upd_eq; reflexivity|rewrite !upd_ne by exact Hz; apply Hab]. }
  revert Hup. rewrite !upd_eq. cbn [without_cache links].
  generalize (upd T a x (without_cache T (b x))) (upd T b x (without_cache T (b x))). generalize (links T (b x)).
  intros l. clear Hab a b. induction l as [|z l IHl]; intros a b Hab; cbn [each]; [apply Hab|].
  pose proof (IH a b z Hab) as H. destruct (updated T root n a z) as [a1|e1], (updated T root n b z) as [b1|e2]; cbn [bind]; try (destruct (H 0); fail).
  - apply IHl. exact H.
  - exact (H 0).
Qed.
Print Assumptions C60_lookat_repaired.

(** Attaching frames to each other in a cycle is accepted, but every later query fails *)
Theorem C60_cycle_refuted : forall T mul inv (one : T) places limit, 2 < limit ->
  exists s1 s2, perform T mul inv one (fun _ => false) limit (detached T places) (SetBase T 0 (Some 1)) = Ok (s1, None) /\
  perform T mul inv one (fun _ => false) limit s1 (SetBase T 1 (Some 0)) = Ok (s2, None) /\
  forall n, perform T mul inv one (fun _ => false) n s2 (Forwards T 0) = Raise RecursionError.
Proof.
  intros T mul inv one places limit Hl. destruct limit as [|[|[|limit]]]; try lia.
  eexists _, _. split; [reflexivity|]. split; [reflexivity|].
  match goal with |- forall n, perform _ _ _ _ _ n ?s _ = _ => set (s2 := s) end.
  assert (H : forall n, forwards_of T mul one (fun _ => false) n s2 0 = Raise RecursionError /\ forwards_of T mul one (fun _ => false) n s2 1 = Raise RecursionError).
  { assert (E0 : forwards T (s2 0) = None /\ base T (s2 0) = Some 1) by (split; reflexivity).
    assert (E1 : forwards T (s2 1) = None /\ base T (s2 1) = Some 0) by (split; reflexivity).
    clearbody s2. destruct E0 as [A0 B0], E1 as [A1 B1]. intros n. induction n as [|n [IH0 IH1]]; [split; reflexivity|]. cbn [forwards_of]. rewrite A0, B0, A1, B1, IH0, IH1. split; reflexivity. }
  intros n. unfold perform. rewrite (proj1 (H n)). reflexivity.
Qed.
Print Assumptions C60_cycle_refuted.
