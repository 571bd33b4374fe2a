(** Proofs about traced paths and Quadriga channels *)
From Coq Require Import List Reals ZArith Bool Arith Lia Lra.
From Coquelicot Require Import Complex.
From Verif Require Import Base BaseLemmas Cplx Cplx_Proofs Chan_Model Chan_Spec Chan_Proofs Trc_Model Trc_Spec.
Import ListNotations.
Open Scope R_scope.

Lemma total_filter : forall {A} (F : A -> C) q l, total F (filter q l) = total (fun a => if q a then F a else RtoC 0) l.
Proof. intros A F q l. induction l as [|a l IH]; [reflexivity|]. cbn [filter total]. destruct (q a); cbn [total]; rewrite IH; ring. Qed.
Lemma total_swap : forall {A B} (F : A -> B -> C) l m, total (fun a => total (F a) m) l = total (fun b => total (fun a => F a b) l) m.
Proof. intros A B F l m. induction l as [|a l IH]; cbn [total]; [symmetry; apply total_0|]. rewrite IH, <- total_plus. reflexivity. Qed.
Lemma csum_cut : forall (q : bool) f n, csum (fun t => if q then f t else RtoC 0) n = if q then csum f n else RtoC 0.
Proof. intros [] f n; [reflexivity|apply csum_0]. Qed.
Lemma total_cut : forall {A} (q : bool) (f : A -> C) l, total (fun t => if q then f t else RtoC 0) l = if q then total f l else RtoC 0.
Proof. intros A [] f l; [reflexivity|apply total_0]. Qed.

(** A state that collects weights of paths at their delays receives the paths *)
Lemma paths_received : forall {P} (l : list P) (d : P -> nat) (w : P -> nat -> nat -> nat -> C) (keep : P -> bool) nr nt n T g b, streams b = nt -> (samples b <= n)%nat ->
  (forall p, In p l -> keep p = true -> (d p < S T)%nat) ->
  (forall r t i k, (r < nr)%nat -> (t < nt)%nat -> (i < n)%nat -> g r t i k = total (fun p => if (Nat.eqb k (d p) && keep p)%bool then w p r t i else RtoC 0) l) ->
  exists y, csi_propagate (impulse_csi nr nt n (S T) g) b = Ok y /\ streams y = nr /\ samples y = (samples b + T)%nat /\
  forall r j, (r < nr)%nat -> x y r j = received (map (fun p => Tap (d p) (w p)) (filter keep l)) b r j.
Proof.
  intros P l d w keep nr nt n T g b Hb Hn Hd Hg.
  destruct (csi_propagate_received (impulse_csi nr nt n (S T) g) b eq_refl ltac:(cbn; lia) Hb Hn) as [y [Ey [Sy [Ny Xy]]]].
  exists y. split; [exact Ey|]. split; [exact Sy|]. split; [rewrite Ny; cbn [impulse_csi ntaps]; lia|]. intros r j Hr. rewrite Xy by exact Hr.
  unfold received. rewrite total_map, total_filter. unfold csi_taps. rewrite total_map. cbn [td weight impulse_csi ntaps h].
  transitivity (total (fun k => total (fun p => if Nat.eqb k (d p) then
     (if keep p then csum (fun t => if (Nat.leb (d p) j && Nat.ltb j (d p + samples b))%bool then (w p r t (j - d p)%nat * x b t (j - d p)%nat)%C else RtoC 0) (streams b) else RtoC 0) else RtoC 0) l) (seq 0 (S T))).
  - apply total_ext. intros k _. rewrite csum_cut. destruct (Nat.leb k j && Nat.ltb j (k + samples b))%bool eqn:W.
    + rewrite (csum_ext _ (fun t => total (fun p => if (Nat.eqb k (d p) && keep p)%bool then (w p r t (j - k)%nat * x b t (j - k)%nat)%C else RtoC 0) l)).
      * rewrite <- total_csum. apply total_ext. intros p _. destruct (Nat.eqb_spec k (d p)) as [->|Hk]; cbn [andb].
        -- destruct (keep p); rewrite ?W; [reflexivity|apply csum_0].
        -- apply csum_0.
      * intros t Ht. apply andb_prop in W. destruct W as [W1 W2]. apply Nat.leb_le in W1. apply Nat.ltb_lt in W2. rewrite Hg by lia. rewrite Cmult_comm, <- total_scal. apply total_ext. intros p _. destruct (_ && _)%bool; ring.
    + transitivity (total (fun _ : P => RtoC 0) l); [symmetry; apply total_0|]. apply total_ext. intros p _. destruct (Nat.eqb_spec k (d p)) as [->|Hk]; [|reflexivity]. destruct (keep p); [|reflexivity]. rewrite csum_cut, W. reflexivity.
  - rewrite total_swap. apply total_ext. intros p Hp.
    match goal with |- total (fun k => if Nat.eqb k ?z then ?v else _) _ = _ => etransitivity; [exact (total_delta (fun _ => v) (S T) z)|] end. cbn beta.
    destruct (keep p) eqn:K; [|destruct (Nat.ltb _ _); reflexivity]. replace (Nat.ltb (d p) (S T)) with true by (symmetry; apply Nat.ltb_lt; exact (Hd p Hp K)). reflexivity.
Qed.

(** ** Delays *)
Lemma fold_max : forall l y, y <= fold_left Rmax l y /\ (forall z, In z l -> z <= fold_left Rmax l y) /\ (fold_left Rmax l y = y \/ In (fold_left Rmax l y) l).
Proof.
  induction l as [|a l IH]; intro y; cbn [fold_left]; [split; [lra|split; [intros z []|left; reflexivity]]|]. destruct (IH (Rmax y a)) as (A & B & D). split; [apply Rle_trans with (2 := A); apply Rmax_l|]. split.
  - intros z [->|Hz]; [apply Rle_trans with (2 := A); apply Rmax_r|apply B; exact Hz].
  - destruct D as [D|D]; [|right; right; exact D]. rewrite D. unfold Rmax. destruct (Rle_dec y a); [right; left; reflexivity|left; reflexivity].
Qed.
Lemma largest_ge : forall l z, In z l -> z <= largest l.
Proof. intros [|y l] z H; [destruct H|]. cbn [largest]. destruct (fold_max l y) as (A & B & _). destruct H as [<-|H]; [exact A|apply B; exact H]. Qed.
Lemma largest_in : forall l, l <> [] -> In (largest l) l.
Proof. intros [|y l] H; [contradiction|]. cbn [largest]. destruct (fold_max l y) as (_ & _ & [D|D]); [left; symmetry; exact D|right; exact D]. Qed.
Lemma floor_bounds : forall r, IZR (Int_part r) <= r < IZR (Int_part r) + 1.
Proof. intros r. destruct (base_Int_part r). lra. Qed.
Lemma ceil_bounds : forall r, IZR (ceil_of r) - 1 < r <= IZR (ceil_of r).
Proof. intros r. unfold ceil_of. rewrite opp_IZR. pose proof (floor_bounds (- r)). lra. Qed.
Lemma floor_ceil : forall a b, 0 <= a -> a <= b -> (Z.of_nat (int_of a) <= ceil_of b)%Z.
Proof.
  intros a b Ha H. unfold int_of. pose proof (floor_bounds a). pose proof (ceil_bounds b). assert (0 <= Int_part a)%Z. { apply Z.lt_succ_r. unfold Z.succ. apply lt_IZR. rewrite plus_IZR. lra. }
  rewrite Z2Nat.id by assumption. apply le_IZR. lra.
Qed.
Lemma int_of_nat : forall n, int_of (INR n) = n.
Proof. intro n. unfold int_of. rewrite INR_IZR_INZ. pose proof (floor_bounds (IZR (Z.of_nat n))) as [A B]. apply le_IZR in A. rewrite <- plus_IZR in B. apply lt_IZR in B. lia. Qed.
Lemma delays_in_time : forall c p, 0 < t_bandwidth c -> In p (t_paths c) -> 0 <= tau p -> (Z.of_nat (delay_of c p) <= ceil_of (max_delay c * t_bandwidth c))%Z.
Proof.
  intros c p Hb Hp Ht. apply floor_ceil; [apply Rmult_le_pos; lra|]. apply Rmult_le_compat_r; [lra|]. apply largest_ge. apply in_map. exact Hp.
Qed.
Lemma reachable_ceil : forall c, reachable c -> (0 <= ceil_of (max_delay c * t_bandwidth c))%Z.
Proof. intros c (Hb & _ & p & Hp & Ht). pose proof (delays_in_time c p Hb Hp Ht). lia. Qed.

(** ** Ray tracing *)
Definition alive (p : traced_path) : bool := if Rle_dec 0 (tau p) then true else false.
Lemma alive_spec : forall p, alive p = true <-> 0 <= tau p.
Proof. intro p. unfold alive. destruct (Rle_dec 0 (tau p)); split; intro; try reflexivity; try discriminate; contradiction || assumption. Qed.
Lemma dead_spec : forall p, alive p = false -> tau p < 0.
Proof. intros p H. unfold alive in H. destruct (Rle_dec 0 (tau p)); [discriminate|lra]. Qed.
Lemma traced_state_ok : forall c n m, reachable c -> exists g, traced_state c n m = Ok (impulse_csi (t_rx c) (t_tx c) n (S (Nat.min m (Z.to_nat (ceil_of (max_delay c * t_bandwidth c))))) g) /\
  forall r t i k, g r t i k = total (fun p => if (Nat.eqb k (delay_of c p) && (alive p && Nat.ltb (delay_of c p) m))%bool then (RtoC (sqrt (t_gain c)) * coefficient p i)%C else RtoC 0) (t_paths c).
Proof.
  intros c n m R. pose proof (reachable_ceil c R) as HC. destruct R as (Hb & Ha & _). unfold traced_state. set (D := ceil_of (max_delay c * t_bandwidth c)) in *.
  destruct (Z.ltb_spec (1 + Z.min (Z.of_nat m) D) 0) as [L|_]; [lia|]. replace (Z.to_nat (1 + Z.min (Z.of_nat m) D)) with (S (Nat.min m (Z.to_nat D))) by lia.
  match goal with |- context [fold_left ?st (t_paths c) ?a] => set (stp := st) end.
  assert (K : forall l a, (forall p, In p l -> In p (t_paths c)) -> exists g, fold_left stp l (Ok a) = Ok g /\
    forall i k, g i k = (a i k + total (fun p => if (Nat.eqb k (delay_of c p) && (alive p && Nat.ltb (delay_of c p) m))%bool then coefficient p i else RtoC 0) l)%C).
  { induction l as [|p l IH]; intros a Hl.
    - exists a. split; [reflexivity|]. intros. cbn [total]. ring.
    - cbn [fold_left]. assert (Eb : exists b, stp (Ok a) p = Ok b /\ forall i k, b i k = (a i k + (if (Nat.eqb k (delay_of c p) && (alive p && Nat.ltb (delay_of c p) m))%bool then coefficient p i else RtoC 0))%C).
      { unfold stp. cbn [bind]. destruct (Rlt_dec (tau p) 0) as [Ln|Ln].
        - exists a. split; [reflexivity|]. intros. assert (E : alive p = false) by (unfold alive; destruct (Rle_dec 0 (tau p)); [lra|reflexivity]). rewrite E. rewrite andb_false_r. ring.
        - assert (E : alive p = true) by (apply alive_spec; lra). rewrite E. cbn [andb]. destruct (Nat.leb_spec m (delay_of c p)) as [Hm|Hm].
          + exists a. split; [reflexivity|]. intros. replace (Nat.ltb (delay_of c p) m) with false by (symmetry; apply Nat.ltb_ge; exact Hm). rewrite andb_false_r. ring.
          + pose proof (delays_in_time c p Hb (Hl p (or_introl eq_refl)) ltac:(lra)) as Q. fold D in Q. destruct (Nat.leb_spec (S (Nat.min m (Z.to_nat D))) (delay_of c p)); [lia|].
            eexists. split; [reflexivity|]. intros i k. cbn beta. replace (Nat.ltb (delay_of c p) m) with true by (symmetry; apply Nat.ltb_lt; exact Hm). rewrite andb_true_r. destruct (Nat.eqb k _); ring. }
      destruct Eb as [b [Eb Hb']]. rewrite Eb. destruct (IH b) as [g [Eg Hg]]; [intros q Hq; apply Hl; right; exact Hq|]. exists g. split; [exact Eg|]. intros i k. rewrite Hg, Hb'. cbn [total]. ring. }
  destruct (K (t_paths c) (fun _ _ => RtoC 0) (fun p H => H)) as [g [Eg Hg]]. rewrite Eg. cbn [bind]. eexists. split; [reflexivity|]. intros r t i k. cbn beta. rewrite Hg, Cplus_0_l, Cmult_comm, <- total_scal. apply total_ext. intros p _. destruct (_ && _)%bool; ring.
Qed.
Lemma taps_filtered : forall c m, filter (fun p => Nat.ltb (td p) m) (traced_taps c) = map (fun p => Tap (delay_of c p) (fun _ _ i => (RtoC (sqrt (t_gain c)) * coefficient p i)%C)) (filter (fun p => (alive p && Nat.ltb (delay_of c p) m)%bool) (t_paths c)).
Proof.
  intros c m. unfold traced_taps. induction (t_paths c) as [|p l IH]; [reflexivity|]. cbn [filter]. fold (alive p). destruct (alive p); cbn [map filter td andb]; [|exact IH]. fold (int_of (tau p * t_bandwidth c)). fold (delay_of c p). destruct (Nat.ltb (delay_of c p) m); cbn [map]; rewrite IH; reflexivity.
Qed.
Lemma traced_state_applied : forall c n m b, reachable c -> streams b = t_tx c -> (samples b <= n)%nat ->
  exists s y, traced_state c n m = Ok s /\ ntaps s = S (Nat.min m (Z.to_nat (ceil_of (max_delay c * t_bandwidth c)))) /\ csi_propagate s b = Ok y /\ streams y = t_rx c /\ samples y = (samples b + Nat.min m (Z.to_nat (ceil_of (max_delay c * t_bandwidth c))))%nat /\
  forall r j, (r < t_rx c)%nat -> x y r j = received (filter (fun p => Nat.ltb (td p) m) (traced_taps c)) b r j.
Proof.
  intros c n m b R Hb Hn. destruct (traced_state_ok c n m R) as (g & E & Hg). pose proof (reachable_ceil c R) as HC.
  destruct (paths_received (t_paths c) (delay_of c) (fun p _ _ i => (RtoC (sqrt (t_gain c)) * coefficient p i)%C) (fun p => (alive p && Nat.ltb (delay_of c p) m)%bool) (t_rx c) (t_tx c) n (Nat.min m (Z.to_nat (ceil_of (max_delay c * t_bandwidth c)))) g b Hb Hn) as (y & Ey & Sy & Ny & Xy).
  - intros p Hp K. apply andb_prop in K. destruct K as [K1 K2]. apply alive_spec in K1. apply Nat.ltb_lt in K2. destruct R as (Hw & _). pose proof (delays_in_time c p Hw Hp K1). lia.
  - intros. apply Hg.
  - exists (impulse_csi (t_rx c) (t_tx c) n (S (Nat.min m (Z.to_nat (ceil_of (max_delay c * t_bandwidth c))))) g), y. split; [exact E|]. split; [reflexivity|]. split; [exact Ey|]. split; [exact Sy|]. split; [exact Ny|]. intros r j Hr. rewrite Xy by exact Hr. rewrite taps_filtered. reflexivity.
Qed.
Lemma traced_propagated : forall c b, reachable c -> exists y, traced_propagate c b = Ok y /\ streams y = t_rx c /\ samples y = (samples b + Z.to_nat (ceil_of (max_delay c * t_bandwidth c)))%nat /\
  offset y = int_of (INR (offset b) * rate_ratio c) /\ forall r j, x y r j = received (traced_taps c) b r j.
Proof.
  intros c b R. pose proof (reachable_ceil c R) as HC. destruct R as (Hb & Ha & q & Hq & _). unfold traced_propagate. set (D := ceil_of (max_delay c * t_bandwidth c)) in *.
  destruct (t_paths c) as [|p0 l0] eqn:EP; [destruct Hq|]. rewrite <- EP in *. destruct (Z.ltb_spec (Z.of_nat (samples b) + D) 0) as [L|_]; [lia|].
  match goal with |- context [fold_left ?st (t_paths c) ?a] => set (stp := st) end.
  set (v := fun (p : traced_path) (j : nat) => if alive p then if (Nat.leb (delay_of c p) j && Nat.ltb j (delay_of c p + samples b))%bool then csum (fun t => coefficient p (j - delay_of c p)%nat * x b t (j - delay_of c p)%nat)%C (streams b) else RtoC 0 else RtoC 0).
  assert (K : forall l a, (forall p, In p l -> In p (t_paths c)) -> exists g, fold_left stp l (Ok a) = Ok g /\ forall j, g j = (a j + total (fun p => v p j) l)%C).
  { induction l as [|p l IH]; intros a Hl.
    - exists a. split; [reflexivity|]. intros. cbn [total]. ring.
    - cbn [fold_left]. assert (Eb : exists z, stp (Ok a) p = Ok z /\ forall j, z j = (a j + v p j)%C).
      { unfold stp, v. cbn [bind]. destruct (Req_EM_T (tau p) (-1)) as [Ln|Ln].
        - exists a. split; [reflexivity|]. intros. assert (E : alive p = false) by (unfold alive; destruct (Rle_dec 0 (tau p)); [lra|reflexivity]). rewrite E. ring.
        - destruct (Ha p (Hl p (or_introl eq_refl))) as [N|N]; [contradiction|]. assert (E : alive p = true) by (apply alive_spec; lra). rewrite E.
          pose proof (delays_in_time c p Hb (Hl p (or_introl eq_refl)) N) as Q. fold D in Q. destruct (Z.leb_spec (Z.of_nat (delay_of c p + samples b)) (Z.of_nat (samples b) + D)); [|lia].
          eexists. split; [reflexivity|]. intro j. cbn beta. destruct (_ && _)%bool; ring. }
      destruct Eb as [z [Eb Hz]]. rewrite Eb. destruct (IH z) as [g [Eg Hg]]; [intros s Hs; apply Hl; right; exact Hs|]. exists g. split; [exact Eg|]. intros j. rewrite Hg, Hz. cbn [total]. ring. }
  destruct (K (t_paths c) (fun _ => RtoC 0) (fun p H => H)) as [g [Eg Hg]]. rewrite Eg. cbn [bind]. eexists. split; [reflexivity|]. cbn [streams samples offset x]. split; [reflexivity|]. split; [lia|]. split; [reflexivity|].
  intros r j. rewrite Hg, Cplus_0_l, Cmult_comm, <- total_scal. unfold received, traced_taps. rewrite total_map, total_filter. apply total_ext. intros p _. unfold v. fold (alive p). destruct (alive p); [|ring]. cbn [td weight]. fold (int_of (tau p * t_bandwidth c)). fold (delay_of c p). rewrite csum_cut.
  destruct (_ && _)%bool; [|ring]. rewrite <- csum_scal. apply csum_ext. intros t _. ring.
Qed.

(** ** Quadriga *)
Lemma quad_in_time : forall c p, 0 < q_bandwidth c -> In p (q_paths c) -> (quad_delay c p <= quad_max c)%nat.
Proof. intros c p Hb Hp. unfold quad_delay, quad_max. unfold in_samples. pose proof (rint_mono (q_delay p * q_bandwidth c) (largest (map q_delay (q_paths c)) * q_bandwidth c)) as Q. assert (q_delay p * q_bandwidth c <= largest (map q_delay (q_paths c)) * q_bandwidth c) by (apply Rmult_le_compat_r; [lra|apply largest_ge; apply in_map; exact Hp]). specialize (Q H). lia. Qed.
Lemma fold_adds_fun : forall {P} (v : P -> nat -> nat -> C) (step : (nat -> nat -> C) -> P -> nat -> nat -> C) l a, (forall a p r j, step a p r j = (a r j + v p r j)%C) ->
  forall r j, fold_left step l a r j = (a r j + total (fun p => v p r j) l)%C.
Proof. intros P v step l. induction l as [|p l IH]; intros a H r j; cbn [fold_left total]; [ring|]. rewrite IH by exact H. rewrite H. ring. Qed.
Lemma quad_propagated : forall c b, q_paths c <> [] -> single_delay c = true -> streams b = q_tx c -> (q_rx c = q_back c \/ q_rx c = 1%nat) ->
  exists y, quad_propagate c b = Ok y /\ streams y = q_back c /\ samples y = (samples b + quad_max c)%nat /\ offset y = offset b /\
  forall r j, x y r j = received (quad_taps c) b (if Nat.eqb (q_rx c) 1 then 0%nat else r) j.
Proof.
  intros c b HP HS Hb HR. unfold quad_propagate. destruct (q_paths c) as [|p0 l0] eqn:EP; [contradiction|]. rewrite <- EP in *. rewrite HS. cbn [negb]. rewrite (proj2 (Nat.eqb_eq _ _) Hb). cbn [negb].
  assert (E : (Nat.eqb (q_rx c) (q_back c) || Nat.eqb (q_rx c) 1)%bool = true). { destruct HR as [H|H]; rewrite (proj2 (Nat.eqb_eq _ _) H); [reflexivity|apply orb_true_r]. } rewrite E. cbn [negb].
  eexists. split; [reflexivity|]. cbn [streams samples offset x]. split; [reflexivity|]. split; [reflexivity|]. split; [reflexivity|]. intros r j.
  rewrite (fold_adds_fun (fun p r j => if (Nat.leb (quad_delay c p) j && Nat.ltb j (quad_delay c p + samples b))%bool then csum (fun t => q_coefficients p (if Nat.eqb (q_rx c) 1 then 0%nat else r) t * x b t (j - quad_delay c p)%nat)%C (q_tx c) else RtoC 0)).
  - rewrite Cplus_0_l, Cmult_comm, <- total_scal. unfold received, quad_taps. rewrite total_map. apply total_ext. intros p _. cbn [td weight]. fold (quad_delay c p). rewrite csum_cut. destruct (_ && _)%bool; [|ring]. rewrite Hb, <- csum_scal. apply csum_ext. intros t _. ring.
  - intros a p r' j'. cbn beta. destruct (_ && _)%bool; ring.
Qed.
Lemma quad_state_ok : forall c n m, 0 < q_bandwidth c -> q_paths c <> [] -> q_rx c = 1%nat -> q_tx c = 1%nat -> (quad_max c < m)%nat ->
  exists g, quad_state c n m = Ok (impulse_csi 1 1 n (S (quad_max c)) g) /\
  forall r t i k, g r t i k = total (fun p => if (Nat.eqb k (quad_delay c p) && true)%bool then (RtoC (sqrt (q_gain c)) * q_coefficients p 0 0)%C else RtoC 0) (q_paths c).
Proof.
  intros c n m Hw HP H1 H2 Hm. unfold quad_state. destruct (q_paths c) as [|p0 l0] eqn:EP; [contradiction|]. rewrite <- EP in *. unfold single_delay. rewrite H1, H2. cbn [Nat.mul Nat.add Nat.eqb]. rewrite orb_true_r. cbn [negb orb andb].
  replace (Nat.min m (quad_max c + 1)) with (S (quad_max c)) by lia.
  match goal with |- context [fold_left ?st (q_paths c) ?a] => set (stp := st) end.
  assert (K : forall l a, (forall p, In p l -> In p (q_paths c)) -> exists g, fold_left stp l (Ok a) = Ok g /\ forall t i k, g t i k = (a t i k + total (fun p => if Nat.eqb k (quad_delay c p) then q_coefficients p 0 0 else RtoC 0) l)%C).
  { induction l as [|p l IH]; intros a Hl.
    - exists a. split; [reflexivity|]. intros. cbn [total]. ring.
    - cbn [fold_left]. unfold stp at 2. cbn [bind]. pose proof (quad_in_time c p Hw (Hl p (or_introl eq_refl))) as Q. destruct (Nat.leb_spec (S (quad_max c)) (quad_delay c p)); [lia|].
      match goal with |- context [fold_left stp l (Ok ?z)] => destruct (IH z) as [g [Eg Hg]] end; [intros s Hs; apply Hl; right; exact Hs|]. exists g. split; [exact Eg|]. intros t i k. rewrite Hg. cbn [total]. destruct (Nat.eqb k _); ring. }
  destruct (K (q_paths c) (fun _ _ _ => RtoC 0) (fun p H => H)) as [g [Eg Hg]]. rewrite Eg. cbn [bind]. eexists. split; [reflexivity|]. intros r t i k. cbn beta. rewrite Hg, Cplus_0_l, Cmult_comm, <- total_scal. apply total_ext. intros p _. rewrite andb_true_r. destruct (Nat.eqb _ _); ring.
Qed.
Lemma filter_true : forall {A} (l : list A), filter (fun _ => true) l = l.
Proof. induction l as [|a l IH]; [reflexivity|]. cbn [filter]. rewrite IH. reflexivity. Qed.
Lemma received_siso : forall c b j, streams b = 1%nat -> received (map (fun p => Tap (quad_delay c p) (fun _ _ _ => (RtoC (sqrt (q_gain c)) * q_coefficients p 0 0)%C)) (q_paths c)) b 0 j = received (quad_taps c) b 0 j.
Proof.
  intros c b j Hb. unfold received, quad_taps. rewrite !total_map. apply total_ext. intros p _. cbn [td weight]. fold (quad_delay c p). rewrite Hb. apply csum_ext. intros t Ht. assert (t = 0%nat) by lia. subst t. reflexivity.
Qed.
