(** Proofs about static operators, slots and triggers *)
From Coq Require Import List Reals Bool Arith ZArith Lia Lra.
From Coquelicot Require Import Complex.
From Verif Require Import Base BaseLemmas Opr_Model Opr_Spec.
Import ListNotations.
Local Open Scope nat_scope.

Lemma existsb_In : forall o s, existsb (Nat.eqb o) s = true <-> In o s.
Proof. intros o s. rewrite existsb_exists. split; [intros (x & I & E); apply Nat.eqb_eq in E; subst; exact I|intro I; exists o; split; [exact I|apply Nat.eqb_refl]]. Qed.
Lemma add_cases : forall s o, (In o s /\ add s o = s) \/ (~ In o s /\ add s o = s ++ [o]).
Proof. intros s o. unfold add. destruct (existsb (Nat.eqb o) s) eqn:E; [left; split; [apply existsb_In; exact E|reflexivity]|right; split; [intro I; apply existsb_In in I; congruence|reflexivity]]. Qed.
Lemma remove_first_filter : forall o s, NoDup s -> remove_first o s = filter (fun a => negb (a =? o)) s.
Proof.
  intros o s N. induction N as [|a s A N IH]; [reflexivity|]. cbn. destruct (Nat.eqb_spec a o) as [E|E]; cbn; [|rewrite IH; reflexivity].
  subst. clear IH N. induction s as [|b s IH]; [reflexivity|]. cbn. destruct (Nat.eqb_spec b o) as [E|E]; cbn; [exfalso; apply A; left; exact E|]. f_equal. apply IH. intro I. apply A. right. exact I.
Qed.
Lemma remove_filter : forall o s, NoDup s -> remove s o = filter (fun a => negb (a =? o)) s.
Proof.
  intros o s N. unfold remove. destruct (existsb (Nat.eqb o) s) eqn:E; [apply remove_first_filter; exact N|]. assert (A : ~ In o s) by (intro I; apply existsb_In in I; congruence). clear E N.
  induction s as [|b s IH]; [reflexivity|]. cbn. destruct (Nat.eqb_spec b o) as [E|E]; cbn; [exfalso; apply A; left; exact E|]. f_equal. apply IH. intro I. apply A. right. exact I.
Qed.
Lemma add_NoDup : forall s o, NoDup s -> NoDup (add s o).
Proof. intros s o N. destruct (add_cases s o) as [[_ ->]|[A ->]]; [exact N|]. assert (Q := Add_app o s []). rewrite app_nil_r in Q. apply (NoDup_Add Q). split; [exact N|exact A]. Qed.
Lemma step_NoDup : forall s op, NoDup s -> NoDup (slot_step s op).
Proof. intros s [o|o] N; cbn; [apply add_NoDup; exact N|]. rewrite remove_filter by exact N. apply NoDup_filter. exact N. Qed.
Lemma slot_snoc : forall l op, slot (l ++ [op]) = slot_step (slot l) op.
Proof. intros l op. unfold slot. rewrite fold_left_app. reflexivity. Qed.
Lemma slot_NoDup : forall l, NoDup (slot l).
Proof. intro l. induction l as [|op l IH] using rev_ind; [constructor|]. rewrite slot_snoc. apply step_NoDup. exact IH. Qed.
Lemma add_In : forall s o p, In p (add s o) <-> p = o \/ In p s.
Proof. intros s o p. destruct (add_cases s o) as [[A ->]|[A ->]]; [split; [right; assumption|intros [->|I]; assumption]|]. rewrite in_app_iff. cbn. split; [intros [I|[I|[]]]; auto|intros [->|I]; auto]. Qed.
Lemma slot_registered : forall l o, In o (slot l) <-> registered l o.
Proof.
  intros l. induction l as [|op l IH] using rev_ind; intro o.
  - split; [intros []|]. intros (a & b & E & _). destruct a; discriminate.
  - rewrite slot_snoc. destruct op as [p|p]; cbn [slot_step].
    + rewrite add_In, IH. split.
      * intros [->|(a & b & E & R)]; [exists l, []; split; [reflexivity|intros []]|]. exists a, (b ++ [Add p]). split; [rewrite E, <- app_assoc; reflexivity|]. rewrite in_app_iff. intros [I|[I|[]]]; [apply R; exact I|discriminate].
      * intros (a & b & E & R). destruct b as [|q b _] using rev_ind.
        -- apply app_inj_tail in E as [_ E]. left. congruence.
        -- right. rewrite app_comm_cons, app_assoc in E. apply app_inj_tail in E as [E _]. exists a, b. split; [exact E|]. intro I. apply R. apply in_or_app. left. exact I.
    + rewrite remove_filter by apply slot_NoDup. rewrite filter_In, IH. split.
      * intros [(a & b & E & R) N]. exists a, (b ++ [Remove p]). split; [rewrite E, <- app_assoc; reflexivity|]. rewrite in_app_iff. intros [I|[I|[]]]; [apply R; exact I|]. injection I as I. subst. rewrite Nat.eqb_refl in N. discriminate.
      * intros (a & b & E & R). destruct b as [|q b _] using rev_ind; [apply app_inj_tail in E as [_ E]; discriminate|]. rewrite app_comm_cons, app_assoc in E. apply app_inj_tail in E as [E Q]. split.
        -- exists a, b. split; [exact E|]. intro I. apply R. apply in_or_app. left. exact I.
        -- destruct (Nat.eqb_spec o p) as [<-|N]; [|reflexivity]. exfalso. apply R. apply in_or_app. right. left. symmetry. exact Q.
Qed.
Lemma index_app : forall o l m, index o (l ++ m) = if existsb (Nat.eqb o) l then index o l else length l + index o m.
Proof. intros o l m. induction l as [|a l IH]; [reflexivity|]. cbn. rewrite (Nat.eqb_sym o a). destruct (a =? o); [reflexivity|]. cbn. rewrite IH. destruct (existsb (Nat.eqb o) l); reflexivity. Qed.
Lemma index_lt : forall o l, In o l <-> index o l < length l.
Proof. intros o l. induction l as [|a l IH]; cbn; [split; [intros []|lia]|]. destruct (Nat.eqb_spec a o) as [E|E]; [split; [lia|auto]|]. rewrite <- Nat.succ_lt_mono, <- IH. split; [intros [I|I]; [contradiction|exact I]|auto]. Qed.
Lemma constructed_In : forall l o, In o (constructed l) <-> In o l.
Proof.
  intro l. induction l as [|p l IH] using rev_ind; intro o; [reflexivity|]. unfold constructed in *. rewrite fold_left_app. cbn [fold_left]. rewrite add_In, IH, in_app_iff. cbn. split; [intros [->|I]; auto|intros [I|[I|[]]]; auto].
Qed.
Lemma constructed_order : forall l o p, In o l -> In p l -> (index o (constructed l) < index p (constructed l) <-> index o l < index p l).
Proof.
  intro l. induction l as [|q l IH] using rev_ind; intros o p O P; [destruct O|]. assert (C0 : constructed (l ++ [q]) = add (constructed l) q) by (unfold constructed; rewrite fold_left_app; reflexivity). rewrite C0.
  assert (X : forall u, existsb (Nat.eqb u) (constructed l) = existsb (Nat.eqb u) l) by (intro u; apply eq_true_iff_eq; rewrite !existsb_In; apply constructed_In).
  destruct (add_cases (constructed l) q) as [[A ->]|[A ->]].
  - apply (proj1 (constructed_In l q)) in A. assert (U : forall u, In u (l ++ [q]) -> In u l /\ index u (l ++ [q]) = index u l). { intros u I. assert (In u l) by (apply in_app_or in I as [I|[<-|[]]]; assumption). split; [assumption|]. rewrite index_app. replace (existsb (Nat.eqb u) l) with true by (symmetry; apply existsb_In; assumption). reflexivity. }
    destruct (U o O) as [O' ->]. destruct (U p P) as [P' ->]. apply IH; assumption.
  - rewrite !index_app, !X. destruct (existsb (Nat.eqb o) l) eqn:EO; destruct (existsb (Nat.eqb p) l) eqn:EP.
    + apply existsb_In in EO. apply existsb_In in EP. apply IH; assumption.
    + apply existsb_In in EO. assert (I1 := proj1 (index_lt o (constructed l)) (proj2 (constructed_In l o) EO)). assert (I2 := proj1 (index_lt o l) EO). lia.
    + apply existsb_In in EP. assert (I1 := proj1 (index_lt p (constructed l)) (proj2 (constructed_In l p) EP)). assert (I2 := proj1 (index_lt p l) EP). lia.
    + assert (o = q). { apply in_app_or in O as [O|[O|[]]]; [apply existsb_In in O; congruence|auto]. } assert (p = q). { apply in_app_or in P as [P|[P|[]]]; [apply existsb_In in P; congruence|auto]. } subst. lia.
Qed.
(** ** Frames *)
Lemma longest_ok : forall bw ops m v, longest bw m ops = Ok v -> (m <= v)%R /\ (forall o, In o ops -> exists d, frame_duration o bw = Ok d /\ (d <= v)%R) /\ (v = m \/ exists o, In o ops /\ frame_duration o bw = Ok v).
Proof.
  intros bw ops. induction ops as [|o ops IH]; intros m v E; cbn [longest] in E.
  - injection E as <-. split; [lra|]. split; [intros o []|left; reflexivity].
  - destruct (frame_duration o bw) as [d|e] eqn:D; cbn [bind] in E; [|discriminate]. destruct (IH _ _ E) as (A & B & C0). assert (M1 := Rmax_l m d). assert (M2 := Rmax_r m d). split; [lra|]. split.
    + intros p [<-|I]; [exists d; split; [exact D|lra]|apply B; exact I].
    + destruct C0 as [->|(p & I & F)]; [|right; exists p; split; [right; exact I|exact F]]. destruct (Rle_dec m d) as [Q|Q]; [right; exists o; split; [left; reflexivity|rewrite Rmax_right by exact Q; exact D]|left; apply Rmax_left; lra].
Qed.
Lemma longest_defined : forall bw ops m, (List.Forall (fun o => ~ silent o) ops -> exists v, longest bw m ops = Ok v) /\ (Exists silent ops -> longest bw m ops = Raise AttributeError).
Proof.
  intros bw ops. induction ops as [|o ops IH]; intro m; [split; [intros _; exists m; reflexivity|intro X; inversion X]|]. cbn [longest]. split.
  - intro F. inversion F as [|a b F1 F2]; subst. destruct o as [n|n s|n p|f g]; cbn [frame_duration bind]; [exfalso; apply F1; exists n; reflexivity| | |]; apply IH; exact F2.
  - intro X. destruct o as [n|n s|n p|f g]; cbn [frame_duration bind]; [reflexivity| | |]; (apply IH; inversion X as [a b X1|a b X1]; subst; [destruct X1; discriminate|exact X1]).
Qed.
Lemma fold_max : forall f (l : list operator) m, let v := fold_left (fun m o => Nat.max m (f o)) l m in m <= v /\ (forall o, In o l -> f o <= v) /\ (v = m \/ exists o, In o l /\ f o = v).
Proof.
  intros f l. induction l as [|a l IH]; intro m; cbn [fold_left].
  - cbv zeta. split; [lia|]. split; [intros o []|left; reflexivity].
  - destruct (IH (Nat.max m (f a))) as (A & B & C0). cbv zeta in *. set (v := fold_left _ l _) in *. split; [lia|]. split; [intros o [<-|I]; [lia|apply B; exact I]|].
    destruct C0 as [E|(o & I & E)]; [|right; exists o; split; [right; exact I|exact E]]. destruct (Nat.le_gt_cases (f a) m); [left; lia|right; exists a; split; [left; reflexivity|lia]].
Qed.
Lemma truncate_ok : forall x, (0 <= x)%R -> (0 <= truncate x)%Z /\ (IZR (truncate x) <= x < IZR (truncate x) + 1)%R.
Proof.
  intros x H. unfold truncate. destruct (Rle_dec 0 x) as [_|Q]; [|contradiction]. destruct (base_Int_part x) as [A B]. split; [|lra]. assert ((-1 < Int_part x)%Z) by (apply lt_IZR; lra). lia.
Qed.
Lemma longest_of_ok : forall r ds m v, longest_of r m ds = Ok v -> (m <= v)%R /\ List.Forall (fun d => sampling_rate d = r /\ exists w, max_frame_duration (bandwidth d) (transmitters d) (receivers d) = Ok w /\ (w <= v)%R) ds /\ (v = m \/ exists d, In d ds /\ max_frame_duration (bandwidth d) (transmitters d) (receivers d) = Ok v).
Proof.
  intros r ds. induction ds as [|d ds IH]; intros m v E; cbn [longest_of] in E.
  - injection E as <-. split; [lra|]. split; [constructor|left; reflexivity].
  - destruct (Req_EM_T (sampling_rate d) r) as [Q|Q]; [|discriminate]. destruct (max_frame_duration _ _ _) as [w|e] eqn:W; cbn [bind] in E; [|discriminate]. destruct (IH _ _ E) as (A & B & C0). assert (M1 := Rmax_l m w). assert (M2 := Rmax_r m w). split; [lra|]. split; [constructor; [split; [exact Q|exists w; split; [exact W|lra]]|exact B]|].
    destruct C0 as [->|(p & I & F)]; [|right; exists p; split; [right; exact I|exact F]]. destruct (Rle_dec m w) as [L|L]; [right; exists d; split; [left; reflexivity|rewrite Rmax_right by exact L; exact W]|left; apply Rmax_left; lra].
Qed.
