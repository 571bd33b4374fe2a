From Coq Require Import List Reals Bool Arith Lia Lra.
From Coquelicot Require Import Complex.
From Verif Require Import Base BaseLemmas Cplx Cplx_Proofs Blk_Proofs Sc_Model Sc_Spec.
Import ListNotations.
Local Open Scope nat_scope.

(** ** Sums and convolutions *)
Lemma csum_triangle : forall (F : nat -> nat -> C) n, csum (fun k => csum (fun i => F i (k - i)) (S k)) n = csum (fun i => csum (fun j => F i j) (n - i)) n.
Proof.
  intros F n. induction n as [|n IH]; [reflexivity|]. 
  transitivity (csum (fun k => csum (fun i => F i (k - i)%nat) (S k)) n + csum (fun i => F i (n - i)%nat) (S n))%C; [reflexivity|]. rewrite IH.
  transitivity (csum (fun i => csum (fun j => F i j) (n - i)%nat + F i (n - i)%nat)%C n + F n 0)%C.
  - rewrite csum_plus. cbn [csum]. rewrite Nat.sub_diag. ring.
  - cbn [csum]. replace (S n - n) with 1 by lia. cbn [csum]. rewrite (csum_ext (fun i => csum (fun j => F i j) (n - i)%nat + F i (n - i)%nat)%C (fun i => csum (fun j => F i j) (S n - i)) n).
    + ring.
    + intros i Hi. replace (S n - i) with (S (n - i)) by lia. reflexivity.
Qed.
Definition cv (f g : nat -> C) (n : nat) : C := csum (fun k => f k * g (n - k)%nat)%C (S n).
Lemma cv_ext : forall f f' g g' n, (forall k, f k = f' k) -> (forall k, g k = g' k) -> cv f g n = cv f' g' n.
Proof. intros f f' g g' n Hf Hg. unfold cv. apply csum_ext. intros k _. rewrite Hf, Hg. reflexivity. Qed.
Lemma cv_assoc : forall f g h n, cv (cv f g) h n = cv f (cv g h) n.
Proof.
  intros f g h n. unfold cv.
  transitivity (csum (fun k => csum (fun i => f i * g (k - i)%nat * h (n - i - (k - i))%nat)%C (S k)) (S n)).
  - apply csum_ext. intros k Hk. rewrite <- csum_scal_r. apply csum_ext. intros i Hi. replace (n - i - (k - i)) with (n - k) by lia. reflexivity.
  - rewrite (csum_triangle (fun i j => f i * g j * h (n - i - j)%nat)%C). apply csum_ext. intros i Hi. rewrite <- csum_scal. replace (S n - i) with (S (n - i)) by lia.
    apply csum_ext. intros j Hj. ring.
Qed.
Lemma at0_tab : forall n f i, at0 (tab n f) i = if i <? n then f i else RtoC 0.
Proof.
  intros n f i. unfold at0, tab. destruct (Nat.ltb_spec i n) as [H|H].
  - rewrite (nth_indep _ _ (f 0)) by (rewrite map_length, seq_length; exact H). rewrite map_nth, seq_nth by exact H. reflexivity.
  - apply nth_overflow. rewrite map_length, seq_length. exact H.
Qed.
Lemma at0_over : forall l i, length l <= i -> at0 l i = RtoC 0.
Proof. intros l i H. apply nth_overflow. exact H. Qed.
Lemma conv_zero : forall a b n, a <> [] -> b <> [] -> length a + length b - 1 <= n -> conv_at a b n = RtoC 0.
Proof.
  intros a b n Ha Hb H. unfold conv_at. rewrite (csum_ext _ (fun _ => RtoC 0)); [apply csum_0|]. intros k Hk.
  assert (0 < length a) by (destruct a; [congruence|cbn; lia]). assert (0 < length b) by (destruct b; [congruence|cbn; lia]).
  destruct (Nat.lt_ge_cases k (length a)) as [L|L]; [rewrite (at0_over b) by lia|rewrite (at0_over a) by lia]; ring.
Qed.
Lemma convolve_ok : forall a b, a <> [] -> b <> [] -> exists c, convolve a b = Ok c /\ length c = length a + length b - 1 /\ forall n, at0 c n = conv_at a b n.
Proof.
  intros a b Ha Hb. exists (tab (length a + length b - 1) (conv_at a b)). split; [destruct a; [congruence|]; destruct b; [congruence|]; reflexivity|].
  split; [unfold tab; rewrite map_length, seq_length; reflexivity|]. intro n. rewrite at0_tab. destruct (Nat.ltb_spec n (length a + length b - 1)); [reflexivity|].
  symmetry. apply conv_zero; assumption.
Qed.
Lemma conv_cv : forall a b n, conv_at a b n = cv (at0 a) (at0 b) n.
Proof. reflexivity. Qed.

(** ** Combs *)
Lemma comb_ok : forall step s, 0 < step -> s <> [] -> exists f, comb (length s) step s = Ok f /\ length f = 1 + (length s - 1) * step /\
  forall i, at0 f i = if i mod step =? 0 then at0 s (i / step) else RtoC 0.
Proof.
  intros step s Hs Ns. unfold comb. assert (0 < length s) by (destruct s; [congruence|cbn; lia]). destruct (Nat.eqb_spec (length s) 0); [lia|]. rewrite Nat.eqb_refl.
  eexists. split; [reflexivity|]. split; [unfold tab; rewrite map_length, seq_length; reflexivity|]. intro i. rewrite at0_tab.
  destruct (Nat.ltb_spec i (1 + (length s - 1) * step)) as [L|L]; [reflexivity|]. destruct (Nat.eqb_spec (i mod step) 0) as [E|E]; [|reflexivity]. symmetry. apply at0_over.
  assert (D : i = step * (i / step)) by (rewrite (Nat.div_mod i step) at 1 by lia; lia). destruct (Nat.lt_ge_cases (i / step) (length s)) as [K|K]; [|exact K]. exfalso. nia.
Qed.
Lemma pick_sum : forall (g : nat -> C) n k, csum (fun i => if i =? k then g i else RtoC 0) n = if k <? n then g k else RtoC 0.
Proof.
  intros g n k. induction n as [|n IH]; [reflexivity|]. cbn [csum]. rewrite IH. destruct (Nat.eqb_spec n k) as [E|E].
  - subst. destruct (Nat.ltb_spec k k), (Nat.ltb_spec k (S k)); try lia. ring.
  - destruct (Nat.ltb_spec k n), (Nat.ltb_spec k (S n)); try lia; ring.
Qed.
Lemma comb_cv : forall step s f g n, 0 < step -> (forall i, at0 f i = if i mod step =? 0 then at0 s (i / step) else RtoC 0) ->
  cv (at0 f) g n = csum (fun m => at0 s m * (if m * step <=? n then g (n - m * step)%nat else RtoC 0))%C (length s).
Proof.
  intros step s f g n Hs Hf. unfold cv.
  rewrite (csum_ext _ (fun k => csum (fun m => if m =? k / step then (if k mod step =? 0 then at0 s m * g (n - k)%nat else RtoC 0)%C else RtoC 0) (length s)) (S n)).
  - rewrite csum_swap. apply csum_ext. intros m Hm.
    rewrite (csum_ext _ (fun k => if k =? m * step then (at0 s m * g (n - k)%nat)%C else RtoC 0) (S n)).
    + rewrite pick_sum. destruct (Nat.leb_spec (m * step) n), (Nat.ltb_spec (m * step) (S n)); try lia; [reflexivity|ring].
    + intros k Hk. destruct (Nat.eqb_spec k (m * step)) as [->|N].
      * rewrite Nat.div_mul, Nat.mod_mul, !Nat.eqb_refl by lia. reflexivity.
      * destruct (Nat.eqb_spec m (k / step)) as [E|E]; [|reflexivity]. destruct (Nat.eqb_spec (k mod step) 0) as [Z|Z]; [|reflexivity]. exfalso. apply N.
        rewrite (Nat.div_mod k step), Z, <- E by lia. lia.
  - intros k Hk. rewrite Hf, (pick_sum (fun m => if k mod step =? 0 then (at0 s m * g (n - k)%nat)%C else RtoC 0)).
    destruct (Nat.eqb_spec (k mod step) 0); [|destruct (_ <? _); ring]. destruct (Nat.ltb_spec (k / step) (length s)) as [L|L]; [reflexivity|]. rewrite at0_over by exact L. ring.
Qed.

(** ** Loopback *)
Lemma filter_all : forall {X} (f : X -> bool) l, (forall x, In x l -> f x = true) -> filter f l = l.
Proof. intros X f l. induction l as [|x l IH]; intro H; [reflexivity|]. cbn [filter]. rewrite (H x) by (left; reflexivity). f_equal. apply IH. intros y Hy. apply H. right. exact Hy. Qed.
Lemma frame_ok : forall sh s, 0 < spacing sh -> tx sh <> [] -> s <> [] -> exists y, modulate sh (length s) s = Ok y /\ length y = (length s - 1) * spacing sh + length (tx sh) /\
  forall n, at0 y n = csum (fun m => at0 s m * (if m * spacing sh <=? n then at0 (tx sh) (n - m * spacing sh) else RtoC 0))%C (length s).
Proof.
  intros sh s Hp Ht Hs. destruct (comb_ok (spacing sh) s Hp Hs) as [f [Ef [Lf Vf]]]. assert (Nf : f <> []) by (intro Ef0; rewrite Ef0 in Lf; discriminate Lf).
  destruct (convolve_ok f (tx sh) Nf Ht) as [y [Ey [Ly Vy]]]. exists y. unfold modulate. rewrite Ef. cbn [bind]. split; [exact Ey|]. split; [rewrite Ly, Lf; generalize ((length s - 1) * spacing sh); intro; lia|].
  intro n. rewrite Vy, conv_cv. apply (comb_cv (spacing sh) s f (at0 (tx sh)) n Hp Vf).
Qed.
Lemma loopback_ok : forall sh s, usable sh -> s <> [] -> exists y z, modulate sh (length s) s = Ok y /\ demodulate sh (length s) y = Ok z /\ length z = length s /\
  forall j, j < length s -> at0 z j = csum (fun m => at0 s m * (if m * spacing sh <=? delay sh + j * spacing sh then cascade sh (delay sh + j * spacing sh - m * spacing sh) else RtoC 0))%C (length s).
Proof.
  intros sh s [Hp [Ht [Hr Hd]]] Hs. destruct (comb_ok (spacing sh) s Hp Hs) as [f [Ef [Lf Vf]]]. assert (Nf : f <> []) by (intro Ef0; rewrite Ef0 in Lf; discriminate Lf).
  destruct (convolve_ok f (tx sh) Nf Ht) as [y [Ey [Ly Vy]]]. assert (Ny : y <> []). { intro. subst y. cbn [length] in Ly. assert (0 < length (tx sh)) by (destruct (tx sh); [congruence|cbn; lia]). rewrite Lf in Ly. revert Ly. generalize ((length s - 1) * spacing sh). intros; lia. }
  destruct (convolve_ok y (rx sh) Ny Hr) as [c [Ec [Lc Vc]]]. assert (0 < length s) by (destruct s; [congruence|cbn; lia]).
  assert (0 < length (tx sh)) by (destruct (tx sh); [congruence|cbn; lia]). assert (0 < length (rx sh)) by (destruct (rx sh); [congruence|cbn; lia]).
  exists y. unfold modulate, demodulate. rewrite Ef. cbn [bind]. rewrite Ec. cbn [bind]. rewrite filter_all.
  - eexists. split; [exact Ey|]. split; [reflexivity|]. rewrite map_length, seq_length. split; [reflexivity|]. intros j Hj.
    change (at0 (tab (length s) (fun j => at0 c (delay sh + j * spacing sh))) j = csum (fun m => at0 s m * (if m * spacing sh <=? delay sh + j * spacing sh then cascade sh (delay sh + j * spacing sh - m * spacing sh) else RtoC 0))%C (length s)).
    rewrite at0_tab. destruct (Nat.ltb_spec j (length s)); [|lia].
    rewrite Vc, conv_cv. rewrite (cv_ext _ (cv (at0 f) (at0 (tx sh))) _ (at0 (rx sh))) by (intro k; first [exact (Vy k)|reflexivity]). rewrite cv_assoc.
    rewrite (comb_cv (spacing sh) s f _ _ Hp Vf). reflexivity.
  - intros j Hj. apply in_seq in Hj. apply Nat.ltb_lt. rewrite Lc, Ly, Lf. assert (j * spacing sh <= (length s - 1) * spacing sh) by (apply Nat.mul_le_mono_r; lia).
    match goal with H : j * _ <= _ |- _ => revert H end. generalize ((length s - 1) * spacing sh) (j * spacing sh). intros; lia.
Qed.
Lemma list_eq_at0 : forall a b, length a = length b -> (forall j, j < length b -> at0 a j = at0 b j) -> a = b.
Proof. intros a b L H. apply (nth_ext a b (RtoC 0) (RtoC 0) L). intros n Hn. apply H. lia. Qed.
Lemma nyquist_loopback : forall sh s, usable sh -> nyquist sh -> s <> [] -> loopback sh s = Ok s.
Proof.
  intros sh s U [N1 [N2 N3]] Hs. destruct (loopback_ok sh s U Hs) as [y [z [Ey [Ez [Lz Vz]]]]]. unfold loopback. rewrite Ey. cbn [bind]. rewrite Ez. f_equal. apply list_eq_at0; [exact Lz|].
  intros j Hj. rewrite Vz by exact Hj. rewrite (csum_ext _ (fun m => if m =? j then at0 s m else RtoC 0)).
  - rewrite pick_sum. destruct (Nat.ltb_spec j (length s)); [reflexivity|lia].
  - intros m Hm. destruct (Nat.eqb_spec m j) as [->|Nj].
    + destruct (Nat.leb_spec (j * spacing sh) (delay sh + j * spacing sh)); [|lia]. replace (delay sh + j * spacing sh - j * spacing sh) with (delay sh) by lia. rewrite N1. ring.
    + destruct (Nat.lt_ge_cases m j) as [L|L].
      * destruct (Nat.leb_spec (m * spacing sh) (delay sh + j * spacing sh)); [|ring].
        replace (delay sh + j * spacing sh - m * spacing sh) with (delay sh + S (j - m - 1) * spacing sh) by (replace j with (m + S (j - m - 1)) at 2 by lia; lia). rewrite N2. ring.
      * destruct (Nat.leb_spec (m * spacing sh) (delay sh + j * spacing sh)) as [K|K]; [|ring].
        assert (Q : m * spacing sh = j * spacing sh + S (m - j - 1) * spacing sh) by (replace m with (j + S (m - j - 1)) at 1 by lia; lia).
        replace (delay sh + j * spacing sh - m * spacing sh) with (delay sh - S (m - j - 1) * spacing sh) by lia. rewrite N3 by lia. ring.
Qed.

(** ** The converse of the criterion *)
Definition unit_vector (n m : nat) : list C := tab n (fun i => if i =? m then RtoC 1 else RtoC 0).
Lemma length_tab : forall {X} n (f : nat -> X), length (tab n f) = n.
Proof. intros X n f. unfold tab. rewrite map_length, seq_length. reflexivity. Qed.
Lemma unit_sum : forall n m g, m < n -> csum (fun k => at0 (unit_vector n m) k * g k)%C n = g m.
Proof.
  intros n m g H. rewrite (csum_ext _ (fun k => if k =? m then g k else RtoC 0)).
  - rewrite pick_sum. destruct (Nat.ltb_spec m n); [reflexivity|lia].
  - intros k Hk. unfold unit_vector. rewrite at0_tab. destruct (Nat.ltb_spec k n); [|lia]. destruct (k =? m); ring.
Qed.
Lemma loopback_unit : forall sh n m j, usable sh -> m < n -> j < n -> loopback sh (unit_vector n m) = Ok (unit_vector n m) ->
  (if m * spacing sh <=? delay sh + j * spacing sh then cascade sh (delay sh + j * spacing sh - m * spacing sh) else RtoC 0) = (if j =? m then RtoC 1 else RtoC 0).
Proof.
  intros sh n m j U Hm Hj L. assert (N : unit_vector n m <> []). { intro E. apply (f_equal (@length C)) in E. unfold unit_vector in E. rewrite length_tab in E. cbn [length] in E. lia. }
  destruct (loopback_ok sh _ U N) as [y [z [Ey [Ez [Lz Vz]]]]]. unfold loopback in L. rewrite Ey in L. cbn [bind] in L. assert (Hz : z = unit_vector n m) by congruence.
  assert (Ln : length (unit_vector n m) = n) by apply length_tab. rewrite Ln in Vz. specialize (Vz j Hj). rewrite Hz in Vz.
  rewrite (unit_sum n m (fun m => if m * spacing sh <=? delay sh + j * spacing sh then cascade sh (delay sh + j * spacing sh - m * spacing sh) else RtoC 0) Hm) in Vz.
  rewrite <- Vz. unfold unit_vector. rewrite at0_tab. destruct (Nat.ltb_spec j n); [reflexivity|lia].
Qed.
Lemma loopback_nyquist : forall sh, usable sh -> (forall s, s <> [] -> loopback sh s = Ok s) -> nyquist sh.
Proof.
  intros sh U H. assert (N : forall n m, m < n -> unit_vector n m <> []). { intros n m Hm E. apply (f_equal (@length C)) in E. unfold unit_vector in E. rewrite length_tab in E. cbn [length] in E. lia. }
  split; [|split].
  - assert (K := loopback_unit sh 1 0 0 U ltac:(lia) ltac:(lia) (H _ (N 1 0 ltac:(lia)))). rewrite !Nat.mul_0_l, Nat.add_0_r, Nat.sub_0_r in K. exact K.
  - intro k. assert (K := loopback_unit sh (k + 2) 0 (S k) U ltac:(lia) ltac:(lia) (H _ (N (k + 2) 0 ltac:(lia)))). rewrite !Nat.mul_0_l, Nat.sub_0_r in K. exact K.
  - intros k Hk. assert (K := loopback_unit sh (k + 2) (S k) 0 U ltac:(lia) ltac:(lia) (H _ (N (k + 2) (S k) ltac:(lia)))). rewrite !Nat.mul_0_l, Nat.add_0_r in K.
    destruct (Nat.leb_spec (S k * spacing sh) (delay sh)); [|lia]. exact K.
Qed.

(** ** Pulses as long as the symbols are apart *)
Lemma cascade_zero : forall sh k, length (tx sh) + length (rx sh) <= S k -> cascade sh k = RtoC 0.
Proof.
  intros sh k H. unfold cascade. rewrite (csum_ext _ (fun _ => RtoC 0)); [apply csum_0|]. intros i Hi.
  destruct (Nat.lt_ge_cases i (length (tx sh))); [rewrite (at0_over (rx sh)) by lia|rewrite (at0_over (tx sh)) by lia]; ring.
Qed.
Lemma short_nyquist : forall sh, 0 < spacing sh -> length (tx sh) = spacing sh -> length (rx sh) = spacing sh -> delay sh = spacing sh - 1 -> cascade sh (delay sh) = RtoC 1 -> usable sh /\ nyquist sh.
Proof.
  intros sh P T R D N. split.
  - split; [exact P|]. split; [intro E; rewrite E in T; cbn in T; lia|]. split; [intro E; rewrite E in R; cbn in R; lia|lia].
  - split; [exact N|]. split.
    + intro k. apply cascade_zero. cbn [Nat.mul]. lia.
    + intros k Hk. cbn [Nat.mul] in Hk. lia.
Qed.
Lemma at0_repeat : forall z n i, at0 (List.repeat z n) i = if i <? n then z else RtoC 0.
Proof.
  intros z n i. unfold at0. destruct (Nat.ltb_spec i n) as [H|H].
  - rewrite (nth_indep _ _ z) by (rewrite repeat_length; exact H). apply nth_repeat.
  - apply nth_overflow. rewrite repeat_length. exact H.
Qed.
Lemma rectangular_nyquist : forall os, 0 < os -> usable (rectangular os) /\ nyquist (rectangular os).
Proof.
  intros os H. apply short_nyquist; cbn [rectangular spacing tx rx delay]; rewrite ?repeat_length; auto. unfold cascade. cbn [rectangular tx rx].
  replace (S (os - 1)) with os by lia. rewrite (csum_ext _ (fun _ => RtoC (/ INR os))).
  - rewrite csum_const. rewrite <- RtoC_mult. f_equal. apply Rinv_r. apply not_0_INR. lia.
  - intros i Hi. rewrite !at0_repeat. destruct (Nat.ltb_spec i os), (Nat.ltb_spec (os - 1 - i) os); try lia. ring.
Qed.
Lemma fmcw_nyquist : forall os chirp, 0 < os -> 0 < chirp -> usable (fmcw os chirp) /\ nyquist (fmcw os chirp).
Proof.
  intros os chirp Ho Hc. assert (0 < os * chirp) by nia. assert (Lt : length (fmcw_tx os chirp) = os * chirp) by (unfold fmcw_tx; rewrite length_tab; lia).
  apply short_nyquist; cbn [fmcw spacing tx rx delay]; rewrite ?map_length, ?rev_length; auto. unfold cascade. cbn [fmcw tx rx].
  replace (S (os * chirp - 1)) with (os * chirp) by lia. rewrite (csum_ext _ (fun _ => RtoC (/ (INR os * INR chirp)))).
  - rewrite csum_const. rewrite <- RtoC_mult, mult_INR. f_equal. apply Rinv_r. apply Rmult_integral_contrapositive_currified; apply not_0_INR; lia.
  - intros i Hi. set (t := fmcw_tx os chirp) in *.
    assert (Q : at0 (map (fun z => conj z * RtoC (/ (INR os * INR chirp)))%C (rev t)) (os * chirp - 1 - i) = (conj (at0 t i) * RtoC (/ (INR os * INR chirp)))%C).
    { unfold at0. rewrite (nth_indep _ _ ((fun z => conj z * RtoC (/ (INR os * INR chirp)))%C (RtoC 0))) by (rewrite map_length, rev_length; lia).
      rewrite (map_nth (fun z => conj z * RtoC (/ (INR os * INR chirp)))%C). rewrite rev_nth by lia. repeat f_equal. lia. }
    rewrite Q. unfold t, fmcw_tx. rewrite at0_tab. destruct (Nat.ltb_spec i (chirp * os)); [|lia].
    rewrite <- (Cmult_1_l (RtoC (/ (INR os * INR chirp)))) at 2. rewrite Cmult_assoc. f_equal. rewrite conj_cis, <- cis_add, Rplus_opp_r. apply cis_0.
Qed.

(** ** Pulses with roll-off *)
Section RollOff.
Local Open Scope R_scope.
Lemma sinc_integer : forall k : Z, sinc (IZR k) = if (k =? 0)%Z then 1 else 0.
Proof.
  intro k. unfold sinc. destruct (Req_EM_T (IZR k) 0) as [E|E].
  - apply eq_IZR_R0 in E. subst. reflexivity.
  - destruct (Z.eqb_spec k 0) as [->|N]; [congruence|]. replace (sin (PI * IZR k)) with 0; [unfold Rdiv; ring|]. symmetry. apply sin_eq_0_1. exists k. ring.
Qed.
Lemma raised_cosine_integer : forall beta (k : Z), raised_cosine beta (IZR k) = if (k =? 0)%Z then 1 else 0.
Proof.
  intros beta k. unfold raised_cosine. rewrite sinc_integer. destruct (Z.eqb_spec k 0) as [->|N].
  - rewrite !Rmult_0_r, cos_0. assert (Q : 1 * 1 / (1 - 0 ^ 2) = 1) by field. rewrite Q. destruct (Req_EM_T beta 0) as [E|E]; [reflexivity|].
    destruct (Req_EM_T (Rabs 0) (1 / (2 * beta))) as [F|F]; [|reflexivity]. exfalso. rewrite Rabs_R0 in F. unfold Rdiv in F. rewrite Rmult_1_l in F. symmetry in F. revert F.
    apply Rinv_neq_0_compat. lra.
  - assert (Z : forall x, 0 * cos x / (1 - (2 * beta * IZR k) ^ 2) = 0) by (intro; unfold Rdiv; ring). rewrite Z. destruct (Req_EM_T beta 0); [reflexivity|].
    destruct (Req_EM_T (Rabs (IZR k)) (1 / (2 * beta))) as [F|F]; [|reflexivity]. rewrite <- F, <- abs_IZR, sinc_integer.
    destruct (Z.eqb_spec (Z.abs k) 0); [lia|ring].
Qed.
Lemma instant_one : forall len i, (0 < len)%nat -> instant len 1 i = IZR (Z.of_nat i - Z.of_nat (len / 2)) \/ len = 1%nat.
Proof.
  intros len i H. destruct (Nat.eq_dec len 1) as [->|N]; [right; reflexivity|left]. unfold instant. rewrite minus_IZR, <- !INR_IZR_INZ.
  rewrite Nat.mul_1_r. assert (K : (0 < len / 2)%nat) by (apply Nat.div_str_pos; lia). assert (K' : INR (len / 2) <> 0) by (apply not_0_INR; lia).
  assert (Q : (if Nat.odd len then (len - 1)%nat else len) = (2 * (len / 2))%nat).
  { rewrite <- Nat.div2_div. assert (O := Nat.div2_odd len). destruct (Nat.odd len); cbn [Nat.b2n] in O; lia. }
  rewrite Q, mult_INR. change (INR 2) with 2. replace (2 * INR (len / 2) / (2 * INR (len / 2))) with 1 by (field; lra). ring.
Qed.
Lemma instant_even : forall len os k, (0 < len)%nat -> (0 < os)%nat -> Nat.odd len = false -> instant len os (k * os) = IZR (Z.of_nat k - Z.of_nat (len / 2)).
Proof.
  intros len os k H O E. unfold instant. rewrite E. rewrite minus_IZR, <- !INR_IZR_INZ, !mult_INR.
  assert (Q : INR len = 2 * INR (len / 2)). { rewrite <- Nat.div2_div. assert (D := Nat.div2_odd len). rewrite E in D. cbn [Nat.b2n] in D. rewrite Nat.add_0_r in D. rewrite D at 1. rewrite mult_INR. reflexivity. }
  assert (INR os <> 0) by (apply not_0_INR; lia). assert (INR len <> 0) by (apply not_0_INR; lia). rewrite <- Q. field_simplify_eq; [ring|]. split; assumption.
Qed.
End RollOff.
Lemma at0_map_seq : forall (f : nat -> C) n i, at0 (map f (seq 0 n)) i = if i <? n then f i else RtoC 0.
Proof. intros f n i. exact (at0_tab n f i). Qed.
Lemma raised_cosine_delta : forall beta len i, 0 < len -> at0 (tx (rolled_off (raised_cosine beta) 1 len 1)) i = if i =? len / 2 then RtoC 1 else RtoC 0.
Proof.
  intros beta len i H. cbn [rolled_off tx]. rewrite at0_map_seq, Nat.mul_1_r. assert (D : len / 2 < len) by (apply Nat.div_lt; lia). destruct (Nat.ltb_spec i len) as [L|L].
  - assert (Q : instant len 1 i = IZR (Z.of_nat i - Z.of_nat (len / 2))).
    { destruct (instant_one len i H) as [E|E]; [exact E|]. subst len. assert (i = 0) by lia. subst i. unfold instant. cbn. lra. }
    rewrite Q, Rmult_1_r, raised_cosine_integer. destruct (Nat.eqb_spec i (len / 2)), (Z.eqb_spec (Z.of_nat i - Z.of_nat (len / 2)) 0); try lia; reflexivity.
  - destruct (Nat.eqb_spec i (len / 2)); [lia|reflexivity].
Qed.
Lemma raised_cosine_nyquist : forall beta len, 0 < len -> usable (rolled_off (raised_cosine beta) 1 len 1) /\ nyquist (rolled_off (raised_cosine beta) 1 len 1).
Proof.
  intros beta len H. set (sh := rolled_off (raised_cosine beta) 1 len 1). assert (D : len / 2 < len) by (apply Nat.div_lt; lia). assert (D2 : 2 * (len / 2) <= len) by (apply Nat.mul_div_le; lia).
  assert (Lt : length (tx sh) = len) by (unfold sh; cbn [rolled_off tx]; rewrite map_length, seq_length; lia).
  assert (Lr : length (rx sh) = len) by (unfold sh; cbn [rolled_off rx]; rewrite !map_length, seq_length; lia).
  assert (Dl : delay sh = 2 * (len / 2)) by (unfold sh; cbn [rolled_off delay]; lia).
  assert (K : forall k, cascade sh k = if k =? 2 * (len / 2) then RtoC 1 else RtoC 0).
  { intro k. assert (Rx : forall i, at0 (rx sh) i = at0 (tx sh) i).
    { intro i. replace (rx sh) with (map (fun z => z * RtoC (/ INR 1))%C (tx sh)) by reflexivity. rewrite (map_ext _ (fun z => z)); [rewrite map_id; reflexivity|].
      intro z. cbn [INR]. rewrite Rinv_1. ring. }
    unfold cascade. rewrite (csum_ext _ (fun i => if i =? len / 2 then (if k - i =? len / 2 then RtoC 1 else RtoC 0) else RtoC 0)).
    - rewrite (pick_sum (fun i => if k - i =? len / 2 then RtoC 1 else RtoC 0)).
      destruct (Nat.ltb_spec (len / 2) (S k)), (Nat.eqb_spec (k - len / 2) (len / 2)), (Nat.eqb_spec k (2 * (len / 2))); try lia; reflexivity.
    - intros i Hi. rewrite Rx. unfold sh. rewrite !raised_cosine_delta by exact H. destruct (i =? len / 2), (k - i =? len / 2); ring. }
  split.
  - split; [unfold sh; cbn; lia|]. split; [intro E; rewrite E in Lt; cbn in Lt; lia|]. split; [intro E; rewrite E in Lr; cbn in Lr; lia|]. rewrite Dl, Lt, Lr. destruct (Nat.eq_dec len 1) as [->|]; [cbn; lia|lia].
  - split; [|split].
    + rewrite K, Dl, Nat.eqb_refl. reflexivity.
    + intro k. rewrite K, Dl. replace (spacing sh) with 1 by reflexivity. destruct (Nat.eqb_spec (2 * (len / 2) + S k * 1) (2 * (len / 2))); [lia|reflexivity].
    + intros k Hk. rewrite K, Dl. rewrite Dl in Hk. replace (spacing sh) with 1 in * by reflexivity. destruct (Nat.eqb_spec (2 * (len / 2) - S k * 1) (2 * (len / 2))); [lia|reflexivity].
Qed.

(** ** Writing to selected positions *)
Lemma write_one_length : forall {X} i (v : X) l, length (write_one i v l) = length l.
Proof. intros X i v l. revert i. induction l as [|h t IH]; intros [|i]; cbn [write_one length]; auto. Qed.
Lemma write_one_same : forall {X} i (v : X) l, i < length l -> nth_error (write_one i v l) i = Some v.
Proof. intros X i v l. revert i. induction l as [|h t IH]; intros [|i] H; cbn [write_one nth_error length] in *; try lia; [reflexivity|]. apply IH. lia. Qed.
Lemma write_one_other : forall {X} i j (v : X) l, i <> j -> nth_error (write_one i v l) j = nth_error l j.
Proof. intros X i j v l. revert i j. induction l as [|h t IH]; intros [|i] [|j] H; cbn [write_one nth_error]; try reflexivity; [congruence|]. apply IH. congruence. Qed.
Lemma writes_length : forall {X} (ps : list (nat * X)) l, length (fold_left (fun acc p => write_one (fst p) (snd p) acc) ps l) = length l.
Proof. intros X ps. induction ps as [|p ps IH]; intro l; [reflexivity|]. cbn [fold_left]. rewrite IH. apply write_one_length. Qed.
Lemma writes_other : forall {X} (ps : list (nat * X)) l i, ~ In i (map fst ps) -> nth_error (fold_left (fun acc p => write_one (fst p) (snd p) acc) ps l) i = nth_error l i.
Proof.
  intros X ps. induction ps as [|p ps IH]; intros l i H; [reflexivity|]. cbn [fold_left]. rewrite IH by (intro; apply H; right; assumption). apply write_one_other. intro; apply H; left; assumption.
Qed.
Lemma writes_same : forall {X} (ps : list (nat * X)) l k p, NoDup (map fst ps) -> (forall q, In q ps -> fst q < length l) -> nth_error ps k = Some p ->
  nth_error (fold_left (fun acc p => write_one (fst p) (snd p) acc) ps l) (fst p) = Some (snd p).
Proof.
  intros X ps. induction ps as [|p ps IH]; intros l k q N B E; [destruct k; discriminate|]. cbn [fold_left]. cbn [map] in N. inversion N as [|x xs N1 N2]. destruct k as [|k].
  - injection E as ->. rewrite writes_other by exact N1. apply write_one_same. apply B. left. reflexivity.
  - cbn [nth_error] in E. apply (IH _ k); [exact N2| |exact E]. intros r Hr. rewrite write_one_length. apply B. right. exact Hr.
Qed.
Lemma nth_error_combine : forall {X Y} (a : list X) (b : list Y) k x y, nth_error a k = Some x -> nth_error b k = Some y -> nth_error (combine a b) k = Some (x, y).
Proof. intros X Y a. induction a as [|a0 a IH]; intros [|b0 b] [|k] x y; cbn; try discriminate; [congruence|]. apply IH. Qed.
Lemma map_fst_combine : forall {X Y} (a : list X) (b : list Y), length a = length b -> map fst (combine a b) = a.
Proof. intros X Y a. induction a as [|x a IH]; intros [|y b] H; cbn in *; try discriminate; [reflexivity|]. f_equal. apply IH. congruence. Qed.
Lemma write_ok : forall {X} idx (vals : list X) l, length vals = length idx -> NoDup idx -> (forall i, In i idx -> i < length l) ->
  exists r, write idx vals l = Ok r /\ length r = length l /\ (forall k i, nth_error idx k = Some i -> nth_error r i = nth_error vals k) /\ (forall i, ~ In i idx -> nth_error r i = nth_error l i).
Proof.
  intros X idx vals l L N B. unfold write. rewrite L, Nat.eqb_refl. eexists. split; [reflexivity|]. split; [apply writes_length|]. split.
  - intros k i E. assert (K : k < length vals) by (rewrite L; apply nth_error_Some; congruence). destruct (nth_error vals k) as [v|] eqn:V; [|apply nth_error_None in V; lia].
    assert (Q := nth_error_combine idx vals k i v E V). apply (writes_same (combine idx vals) l k (i, v)); [rewrite map_fst_combine by auto; exact N| |exact Q].
    intros [j w] Hq. apply in_combine_l in Hq. apply B. exact Hq.
  - intros i H. apply writes_other. rewrite map_fst_combine by auto. exact H.
Qed.

(** ** The positions of data symbols *)
From Coq Require Import Sorting.Sorted Permutation.
Lemma sorted_ext : forall a b : list nat, StronglySorted lt a -> StronglySorted lt b -> (forall i, In i a <-> In i b) -> a = b.
Proof.
  intros a. induction a as [|x a IH]; intros b Sa Sb H.
  - destruct b as [|y b]; [reflexivity|]. exfalso. apply (proj2 (H y)). left. reflexivity.
  - destruct b as [|y b]; [exfalso; apply (proj1 (H x)); left; reflexivity|]. inversion Sa as [|u us A1 A2]. inversion Sb as [|v vs B1 B2]. rewrite Forall_forall in A2, B2.
    assert (Exy : x = y).
    { destruct (proj1 (H x) (or_introl eq_refl)) as [E|E]; [auto|]. destruct (proj2 (H y) (or_introl eq_refl)) as [F|F]; [auto|]. specialize (A2 _ F). specialize (B2 _ E). lia. }
    f_equal; [exact Exy|]. apply IH; [exact A1|exact B1|]. intro i. split; intro I.
    + destruct (proj1 (H i) (or_intror I)) as [E|E]; [|exact E]. specialize (A2 _ I). lia.
    + destruct (proj2 (H i) (or_intror I)) as [E|E]; [|exact E]. specialize (B2 _ I). lia.
Qed.
Lemma sorted_filter : forall (f : nat -> bool) l, StronglySorted lt l -> StronglySorted lt (filter f l).
Proof.
  intros f l S. induction S as [|x l S IH A]; [constructor|]. cbn [filter]. destruct (f x); [|exact IH]. constructor; [exact IH|]. apply Forall_forall. intros y Hy. apply filter_In in Hy.
  rewrite Forall_forall in A. apply A. apply Hy.
Qed.
Lemma sorted_map_seq : forall (f : nat -> nat) n a, (forall i j, i < j -> f i < f j) -> StronglySorted lt (map f (seq a n)).
Proof.
  intros f n. induction n as [|n IH]; intros a H; [constructor|]. cbn [seq map]. constructor; [apply IH; exact H|]. apply Forall_forall. intros y Hy. apply in_map_iff in Hy.
  destruct Hy as [i [<- Hi]]. apply in_seq in Hi. apply H. lia.
Qed.
Lemma sorted_seq : forall n a, StronglySorted lt (seq a n).
Proof. intros n a. rewrite <- (map_id (seq a n)). apply sorted_map_seq. auto. Qed.
Lemma in_pilots : forall l i, In i (pilot_indices l) <-> 0 < rate l /\ exists k, k < num_pilots l /\ i = (k + 1) * (1 + rate l) - 1.
Proof.
  intros l i. unfold pilot_indices. destruct (Nat.eqb_spec (rate l) 0) as [E|E].
  - split; [intros []|lia].
  - rewrite in_map_iff. split.
    + intros [k [<- Hk]]. apply in_seq in Hk. split; [lia|]. exists k. split; [lia|reflexivity].
    + intros [_ [k [Hk ->]]]. exists k. split; [reflexivity|]. apply in_seq. lia.
Qed.
Lemma pilots_fit : forall l, 0 < rate l -> num_pilots l = 0 \/ (num_pilots l + 1) * rate l <= data l.
Proof.
  intros l H. unfold num_pilots. destruct (Nat.eqb_spec (rate l) 0); [lia|]. assert (K := Nat.mul_div_le (data l) (rate l) ltac:(lia)). destruct (data l / rate l) as [|[|q]] eqn:D; [left; lia|left; lia|right].
  replace (S (S q) - 1 + 1) with (S (S q)) by lia. rewrite Nat.mul_comm. exact K.
Qed.
Definition shift (l : layout) (k : nat) : nat := k + min (num_pilots l) (k / rate l).
Lemma shift_mono : forall l i j, i < j -> shift l i < shift l j.
Proof. intros l i j H. unfold shift. destruct (Nat.eq_dec (rate l) 0) as [E|E]; [rewrite E; cbn; lia|]. assert (i / rate l <= j / rate l) by (apply Nat.div_le_mono; lia). lia. Qed.
Lemma data_in : forall l i, In i (data_indices l) <-> i < payload l /\ ~ In i (pilot_indices l).
Proof.
  intros l i. unfold data_indices. rewrite filter_In, in_seq, negb_true_iff, <- not_true_iff_false, existsb_exists. split.
  - intros [A B]. split; [lia|]. intro I. apply B. exists i. split; [exact I|apply Nat.eqb_refl].
  - intros [A B]. split; [lia|]. intros [x [I E]]. apply Nat.eqb_eq in E. subst. exact (B I).
Qed.
Lemma shift_data : forall l i, (i < payload l /\ ~ In i (pilot_indices l)) <-> exists k, k < data l /\ i = shift l k.
Proof.
  intros l i. unfold payload, shift. destruct (Nat.eq_dec (rate l) 0) as [E|E].
  - assert (P : num_pilots l = 0) by (unfold num_pilots; rewrite E; reflexivity). rewrite P. split.
    + intros [A _]. exists i. cbn [min]. lia.
    + intros [k [A B]]. split; [cbn [min] in B; lia|]. rewrite in_pilots. lia.
  - rewrite in_pilots. set (q := num_pilots l). set (r := rate l) in *. assert (F : q = 0 \/ (q + 1) * r <= data l) by (apply pilots_fit; lia). split.
    + intros [A B]. destruct (Nat.lt_ge_cases (i / (1 + r)) q) as [L|L].
      * assert (M := Nat.mod_upper_bound i (1 + r) ltac:(lia)). assert (D := Nat.div_mod i (1 + r) ltac:(lia)). set (b := i / (1 + r)) in *. set (m := i mod (1 + r)) in *.
        assert (m <> r). { intro. apply B. split; [lia|]. exists b. split; [exact L|]. rewrite D. lia. }
        exists (b * r + m). assert (Q : (b * r + m) / r = b) by (rewrite Nat.div_add_l by lia; rewrite Nat.div_small by lia; lia). rewrite Q. split; [|rewrite D; lia].
        destruct F as [F|F]; [lia|]. assert ((b + 1) * r <= q * r) by (apply Nat.mul_le_mono_r; lia). lia.
      * exists (i - q). assert (G : q * (1 + r) <= i). { assert (D := Nat.mul_div_le i (1 + r) ltac:(lia)). assert ((1 + r) * q <= (1 + r) * (i / (1 + r))) by (apply Nat.mul_le_mono_l; exact L). lia. }
        assert (q <= (i - q) / r) by (apply Nat.div_le_lower_bound; [lia|]; lia). split; lia.
    + intros [k [A B]]. assert (M := Nat.mod_upper_bound k r ltac:(lia)). assert (D := Nat.div_mod k r ltac:(lia)). split; [lia|]. intros [_ [j [J1 J2]]].
      destruct (Nat.lt_ge_cases (k / r) q) as [L|L].
      * rewrite Nat.min_r in B by lia. set (b := k / r) in *. set (m := k mod r) in *.
        assert (X : (b * (1 + r) + m) = (j * (1 + r) + r)) by lia.
        assert (X1 : (b * (1 + r) + m) / (1 + r) = b) by (rewrite Nat.div_add_l by lia; rewrite Nat.div_small by lia; lia).
        assert (X2 : (j * (1 + r) + r) / (1 + r) = j) by (rewrite Nat.div_add_l by lia; rewrite Nat.div_small by lia; lia).
        rewrite X, X2 in X1. subst j. lia.
      * rewrite Nat.min_l in B by lia. assert (q * r <= k) by (assert (r * q <= r * (k / r)) by (apply Nat.mul_le_mono_l; exact L); lia).
        assert ((j + 1) * (1 + r) <= q * (1 + r)) by (apply Nat.mul_le_mono_r; lia). lia.
Qed.
Lemma data_indices_closed : forall l, data_indices l = map (shift l) (seq 0 (data l)).
Proof.
  intro l. apply sorted_ext.
  - apply sorted_filter. apply sorted_seq.
  - apply sorted_map_seq. apply shift_mono.
  - intro i. rewrite data_in, shift_data, in_map_iff. split.
    + intros [k [A B]]. exists k. split; [auto|apply in_seq; lia].
    + intros [k [A B]]. apply in_seq in B. exists k. split; [lia|auto].
Qed.

(** ** Frames *)
Lemma pilot_lt : forall l i, In i (pilot_indices l) -> i < payload l.
Proof.
  intros l i H. apply in_pilots in H. destruct H as [R [k [K ->]]]. unfold payload. destruct (pilots_fit l R) as [F|F]; [lia|].
  assert ((k + 1) * (1 + rate l) <= num_pilots l * (1 + rate l)) by (apply Nat.mul_le_mono_r; lia). lia.
Qed.
Lemma pilot_count : forall l, length (pilot_indices l) = num_pilots l.
Proof. intro l. unfold pilot_indices, num_pilots. destruct (rate l =? 0); [reflexivity|]. rewrite map_length, seq_length. reflexivity. Qed.
Lemma pilot_nth : forall l k, k < num_pilots l -> nth_error (pilot_indices l) k = Some ((k + 1) * (1 + rate l) - 1).
Proof.
  intros l k H. unfold pilot_indices. destruct (Nat.eqb_spec (rate l) 0) as [E|E]; [unfold num_pilots in H; rewrite E in H; cbn in H; lia|].
  rewrite nth_error_map', nth_error_seq. destruct (Nat.ltb_spec k (num_pilots l)); [reflexivity|lia].
Qed.
Lemma sorted_nodup : forall l, StronglySorted lt l -> NoDup l.
Proof. intros l S. induction S as [|x l S IH A]; constructor; [|exact IH]. intro I. rewrite Forall_forall in A. specialize (A _ I). lia. Qed.
Lemma pilot_sorted : forall l, StronglySorted lt (pilot_indices l).
Proof.
  intro l. unfold pilot_indices. destruct (rate l =? 0); [constructor|]. apply sorted_map_seq. intros i j H. assert ((i + 1) * (1 + rate l) < (j + 1) * (1 + rate l)) by (apply Nat.mul_lt_mono_pos_r; lia). lia.
Qed.
Lemma nodup_shifted : forall p l, NoDup l -> NoDup (map (Nat.add p) l).
Proof. intros p l N. apply FinFun.Injective_map_NoDup; [intros a b H; lia|exact N]. Qed.
Lemma data_nodup : forall l, NoDup (data_indices l).
Proof. intro l. apply NoDup_filter. apply seq_NoDup. Qed.
Lemma data_nth : forall l k, k < data l -> nth_error (data_indices l) k = Some (shift l k).
Proof. intros l k H. rewrite data_indices_closed, nth_error_map', nth_error_seq. destruct (Nat.ltb_spec k (data l)); [reflexivity|lia]. Qed.
Lemma data_count : forall l, length (data_indices l) = data l.
Proof. intro l. rewrite data_indices_closed, map_length, seq_length. reflexivity. Qed.
Lemma shift_position : forall l k, data_position l k = preamble l + shift l k.
Proof. intros l k. unfold data_position, shift. lia. Qed.
Lemma nth_error_skipn' : forall {X} n (l : list X) i, nth_error (skipn n l) i = nth_error l (n + i).
Proof. intros X n. induction n as [|n IH]; intros [|x l] i; try reflexivity; [destruct i; reflexivity|]. apply IH. Qed.
Lemma nth_error_firstn' : forall {X} n (l : list X) i, i < n -> nth_error (firstn n l) i = nth_error l i.
Proof. intros X n. induction n as [|n IH]; intros [|x l] [|i] H; try reflexivity; try lia. cbn [firstn nth_error]. apply IH. lia. Qed.
Lemma place_ok : forall l pf symbols P, pf (num_references l) = Ok P -> length P = num_references l -> length symbols = data l ->
  exists f, place l pf symbols = Ok f /\ length f = frame_symbols l /\
    (forall k, k < data l -> nth_error f (data_position l k) = nth_error (map Some symbols) k) /\
    (forall k, k < num_references l -> nth_error f (reference_position l k) = nth_error (map Some P) k).
Proof.
  intros l pf symbols P EP LP LS. unfold num_references in *. unfold place. rewrite EP. cbn [bind].
  destruct (write_ok (seq 0 (preamble l)) (map Some (firstn (preamble l) P)) (List.repeat None (frame_symbols l))) as [f1 [E1 [L1 [S1 O1]]]].
  { rewrite map_length, firstn_length, seq_length. lia. } { apply seq_NoDup. } { intros i Hi. apply in_seq in Hi. rewrite repeat_length. unfold frame_symbols. lia. }
  rewrite repeat_length in L1. rewrite E1. cbn [bind].
  destruct (write_ok (seq (preamble l + payload l) (postamble l)) (map Some (skipn (preamble l + num_pilots l) P)) f1) as [f2 [E2 [L2 [S2 O2]]]].
  { rewrite map_length, skipn_length, seq_length. lia. } { apply seq_NoDup. } { intros i Hi. apply in_seq in Hi. rewrite L1. unfold frame_symbols. lia. }
  rewrite L1 in L2. rewrite E2. cbn [bind].
  destruct (write_ok (map (Nat.add (preamble l)) (pilot_indices l)) (map Some (firstn (num_pilots l) (skipn (preamble l) P))) f2) as [f3 [E3 [L3 [S3 O3]]]].
  { rewrite !map_length, firstn_length, skipn_length, pilot_count. lia. } { apply nodup_shifted, sorted_nodup, pilot_sorted. }
  { intros i Hi. apply in_map_iff in Hi. destruct Hi as [j [<- Hj]]. apply pilot_lt in Hj. rewrite L2. unfold frame_symbols. lia. }
  rewrite L2 in L3. rewrite E3. cbn [bind].
  destruct (write_ok (map (Nat.add (preamble l)) (data_indices l)) (map Some symbols) f3) as [f4 [E4 [L4 [S4 O4]]]].
  { rewrite !map_length, data_count. exact LS. } { apply nodup_shifted, data_nodup. }
  { intros i Hi. apply in_map_iff in Hi. destruct Hi as [j [<- Hj]]. apply data_in in Hj. rewrite L3. unfold frame_symbols. lia. }
  rewrite L3 in L4. exists f4. split; [exact E4|]. split; [exact L4|]. split.
  - intros k Hk. apply S4. rewrite nth_error_map', data_nth by exact Hk. rewrite shift_position. reflexivity.
  - intros k Hk. unfold reference_position. destruct (Nat.ltb_spec k (preamble l)) as [A|A]; [|destruct (Nat.ltb_spec k (preamble l + num_pilots l)) as [B|B]].
    + rewrite O4, O3, O2. { rewrite (S1 k k). - rewrite !nth_error_map', nth_error_firstn' by exact A. reflexivity. - rewrite nth_error_seq. destruct (Nat.ltb_spec k (preamble l)); [reflexivity|lia]. }
      * rewrite in_seq. lia.
      * rewrite in_map_iff. intros [j [J _]]. lia.
      * rewrite in_map_iff. intros [j [J _]]. lia.
    + set (i := (k - preamble l + 1) * (1 + rate l) - 1). assert (Pi := pilot_nth l (k - preamble l) ltac:(lia)). fold i in Pi. assert (Ri : 0 < rate l).
      { destruct (Nat.eq_dec (rate l) 0) as [Z|Z]; [|lia]. exfalso. unfold num_pilots in B. rewrite Z in B. cbn in B. lia. }
      assert (Q : preamble l + (k - preamble l + 1) * (1 + rate l) - 1 = preamble l + i) by (unfold i; assert (1 <= (k - preamble l + 1) * (1 + rate l)) by (apply (Nat.mul_le_mono 1 _ 1 _); lia); lia).
      rewrite Q, O4.
      * rewrite (S3 (k - preamble l)) by (rewrite nth_error_map', Pi; reflexivity). rewrite !nth_error_map', nth_error_firstn', nth_error_skipn' by lia. replace (preamble l + (k - preamble l)) with k by lia. reflexivity.
      * rewrite in_map_iff. intros [j [J I]]. assert (j = i) by lia. subst j. apply data_in in I. apply (proj2 I). apply (nth_error_In _ (k - preamble l)). exact Pi.
    + rewrite O4, O3.
      * rewrite (S2 (k - num_pilots l - preamble l)).
        -- rewrite !nth_error_map', nth_error_skipn'. replace (preamble l + num_pilots l + (k - num_pilots l - preamble l)) with k by lia. reflexivity.
        -- rewrite nth_error_seq. destruct (Nat.ltb_spec (k - num_pilots l - preamble l) (postamble l)); [f_equal; lia|lia].
      * rewrite in_map_iff. intros [j [J I]]. apply pilot_lt in I. lia.
      * rewrite in_map_iff. intros [j [J I]]. apply data_in in I. lia.
Qed.
Lemma pick_ok : forall {X} l (f : list X) vals, length vals = data l -> (forall k, k < data l -> nth_error f (data_position l k) = nth_error vals k) -> pick l f = Ok vals.
Proof.
  intros X l f vals L H. unfold pick. rewrite data_indices_closed, map_map.
  assert (G : forall n a v, length v = n -> (forall k, k < n -> nth_error f (preamble l + shift l (a + k)) = nth_error v k) ->
    mapM (fun i => match nth_error f i with Some v => Ok v | None => Raise IndexError end) (map (fun k => preamble l + shift l k) (seq a n)) = Ok v).
  { intro n. induction n as [|n IH]; intros a [|x v] Lv Hv; cbn [length] in Lv; try discriminate; [reflexivity|]. cbn [seq map mapM]. assert (K := Hv 0 ltac:(lia)). rewrite Nat.add_0_r in K. rewrite K. cbn [nth_error bind].
    rewrite (IH (S a) v); [reflexivity|congruence|]. intros k Hk. replace (S a + k) with (a + S k) by lia. apply (Hv (S k)). lia. }
  apply G; [exact L|]. intros k Hk. cbn [Nat.add]. rewrite <- shift_position. apply H. exact Hk.
Qed.
Lemma seq_from : forall n a, seq a n = map (Nat.add a) (seq 0 n).
Proof.
  assert (G : forall n a z, map (Nat.add a) (seq z n) = seq (a + z) n) by (intro n; induction n as [|n IH]; intros a z; cbn [seq map]; [reflexivity|]; f_equal; rewrite IH; f_equal; lia).
  intros n a. rewrite G, Nat.add_0_r. reflexivity.
Qed.
Lemma reference_list : forall l, reference_indices l = map (reference_position l) (seq 0 (num_references l)).
Proof.
  intro l. unfold reference_indices, num_references. replace (preamble l + num_pilots l + postamble l) with (preamble l + (num_pilots l + postamble l)) by lia.
  rewrite seq_app, map_app, seq_app, map_app. cbn [Nat.add]. rewrite (seq_from (num_pilots l)), (seq_from (postamble l) (preamble l + num_pilots l)), !map_map. f_equal; [|f_equal].
  - rewrite <- (map_id (seq 0 (preamble l))) at 1. apply map_ext_in. intros k Hk. apply in_seq in Hk. unfold reference_position. destruct (Nat.ltb_spec k (preamble l)); [reflexivity|lia].
  - unfold pilot_indices. destruct (Nat.eqb_spec (rate l) 0) as [Z|Z]; [unfold num_pilots; rewrite Z; reflexivity|]. rewrite map_map. apply map_ext_in. intros k Hk. apply in_seq in Hk. unfold reference_position.
    destruct (Nat.ltb_spec (preamble l + k) (preamble l)); [lia|]. destruct (Nat.ltb_spec (preamble l + k) (preamble l + num_pilots l)); [|lia].
    replace (preamble l + k - preamble l) with k by lia. assert (1 <= (k + 1) * (1 + rate l)) by (apply (Nat.mul_le_mono 1 _ 1 _); lia). lia.
  - apply map_ext_in. intros k Hk. apply in_seq in Hk. unfold reference_position.
    destruct (Nat.ltb_spec (preamble l + num_pilots l + k) (preamble l)); [lia|]. destruct (Nat.ltb_spec (preamble l + num_pilots l + k) (preamble l + num_pilots l)); lia.
Qed.
Lemma nodup_app : forall {X} (a b : list X), NoDup a -> NoDup b -> (forall x, In x a -> ~ In x b) -> NoDup (a ++ b).
Proof.
  intros X a b Na Nb D. induction Na as [|x a I N IH]; [exact Nb|]. cbn [app]. constructor.
  - rewrite in_app_iff. intros [H|H]; [exact (I H)|]. exact (D x (or_introl eq_refl) H).
  - apply IH. intros y Hy. apply D. right. exact Hy.
Qed.
Lemma in_references : forall l i, In i (reference_indices l) <-> i < preamble l \/ (preamble l <= i /\ In (i - preamble l) (pilot_indices l)) \/ (preamble l + payload l <= i < frame_symbols l).
Proof.
  intros l i. unfold reference_indices, frame_symbols. rewrite !in_app_iff, !in_map_iff, in_seq. split.
  - intros [H|[[j [J I]]|[j [J I]]]].
    + left. lia.
    + right. left. replace (i - preamble l) with j by lia. split; [lia|exact I].
    + apply in_seq in I. right. right. lia.
  - intros [H|[[H I]|H]].
    + left. lia.
    + right. left. exists (i - preamble l). split; [lia|exact I].
    + right. right. exists (i - preamble l - payload l). split; [lia|]. apply in_seq. lia.
Qed.
Lemma references_sorted : forall l, StronglySorted lt (reference_indices l).
Proof.
  assert (A : forall a b, StronglySorted lt a -> StronglySorted lt b -> (forall x y, In x a -> In y b -> x < y) -> StronglySorted lt (a ++ b)).
  { intros a b Sa Sb H. induction Sa as [|x a Sa IH F]; [exact Sb|]. cbn [app]. constructor.
    - apply IH. intros y z Hy Hz. apply H; [right; exact Hy|exact Hz].
    - apply Forall_app. split; [exact F|]. apply Forall_forall. intros y Hy. apply H; [left; reflexivity|exact Hy]. }
  assert (B : forall p a, StronglySorted lt a -> StronglySorted lt (map (fun i => i + p) a)).
  { intros p a S. induction S as [|x a S IH F]; [constructor|]. cbn [map]. constructor; [exact IH|]. apply Forall_forall. intros y Hy. apply in_map_iff in Hy. destruct Hy as [j [<- J]]. rewrite Forall_forall in F. specialize (F _ J). lia. }
  intro l. unfold reference_indices. apply A; [apply sorted_seq| |].
  - apply A; [apply B, pilot_sorted|apply sorted_map_seq; intros; lia|]. intros x y Hx Hy. apply in_map_iff in Hx, Hy. destruct Hx as [i [<- I]]. destruct Hy as [j [<- J]]. apply pilot_lt in I. lia.
  - intros x y Hx Hy. apply in_seq in Hx. apply in_app_iff in Hy. destruct Hy as [Hy|Hy]; apply in_map_iff in Hy; destruct Hy as [j [<- J]]; lia.
Qed.
Lemma positions_permutation : forall l, Permutation (map (reference_position l) (seq 0 (num_references l)) ++ map (data_position l) (seq 0 (data l))) (seq 0 (frame_symbols l)).
Proof.
  intro l. rewrite <- reference_list.
  assert (D : map (data_position l) (seq 0 (data l)) = map (Nat.add (preamble l)) (data_indices l)) by (rewrite data_indices_closed, map_map; apply map_ext; intro; apply shift_position).
  rewrite D. apply NoDup_Permutation.
  - apply nodup_app; [apply sorted_nodup, references_sorted|apply nodup_shifted, data_nodup|]. intros x Hx Hy. apply in_references in Hx. apply in_map_iff in Hy. destruct Hy as [j [<- J]]. apply data_in in J.
    replace (preamble l + j - preamble l) with j in Hx by lia. destruct Hx as [Hx|[[_ Hx]|Hx]]; [lia|exact (proj2 J Hx)|lia].
  - apply seq_NoDup.
  - intro i. rewrite in_app_iff, in_references, in_map_iff, in_seq. split.
    + intros [[H|[[H I]|H]]|[j [<- J]]]; unfold frame_symbols in *; try lia.
      * apply pilot_lt in I. lia.
      * apply data_in in J. lia.
    + intros [_ H]. cbn [Nat.add] in H. unfold frame_symbols in *. destruct (Nat.lt_ge_cases i (preamble l)) as [A|A]; [left; left; lia|]. destruct (Nat.lt_ge_cases i (preamble l + payload l)) as [B|B]; [|left; right; right; lia].
      destruct (in_dec Nat.eq_dec (i - preamble l) (pilot_indices l)) as [I|I]; [left; right; left; split; [lia|exact I]|]. right. exists (i - preamble l). split; [lia|]. apply data_in. split; [lia|exact I].
Qed.

(** ** Pilot symbols *)
Lemma pilot_symbols_ok : forall s repeats n, s <> [] -> repeats = true \/ n <= length s ->
  exists p, pilot_symbols s repeats n = Ok p /\ length p = n /\ forall i, i < n -> nth_error p i = nth_error s (i mod length s).
Proof.
  intros s repeats n Hs H. assert (L : 0 < length s) by (destruct s; [congruence|cbn; lia]).
  assert (U : pilot_symbols s repeats n = if 1 <? (n + length s - 1) / length s then (if repeats then Ok (firstn n (concat (List.repeat s ((n + length s - 1) / length s)))) else Raise RuntimeError) else Ok (firstn n s)) by (destruct s; [congruence|reflexivity]).
  rewrite U. clear U. set (q := (n + length s - 1) / length s). assert (Q : n <= q * length s).
  { assert (D := Nat.div_mod (n + length s - 1) (length s) ltac:(lia)). assert (M := Nat.mod_upper_bound (n + length s - 1) (length s) ltac:(lia)). fold q in D. lia. }
  destruct (Nat.ltb_spec 1 q) as [G|G].
  - assert (repeats = true).
    { destruct H as [H|H]; [exact H|]. exfalso. assert (2 * length s <= n + length s - 1) by (assert (K := Nat.mul_div_le (n + length s - 1) (length s) ltac:(lia)); fold q in K; assert (length s * 2 <= length s * q) by (apply Nat.mul_le_mono_l; lia); lia). lia. }
    subst repeats. eexists. split; [reflexivity|]. split; [rewrite firstn_length, length_concat_repeat; lia|]. intros i Hi. rewrite nth_error_firstn' by exact Hi.
    assert (D := Nat.div_mod i (length s) ltac:(lia)). assert (M := Nat.mod_upper_bound i (length s) ltac:(lia)).
    assert (E : i / length s < q) by (apply Nat.div_lt_upper_bound; lia).
    assert (N : nth_error s (i mod length s) = Some (nth (i mod length s) s (RtoC 0))) by (apply nth_error_nth'; exact M).
    rewrite N. rewrite <- (nth_concat_repeat s q (i / length s) (i mod length s) (RtoC 0) E M). replace (i / length s * length s + i mod length s) with i by lia. apply nth_error_nth'. rewrite length_concat_repeat. lia.
  - assert (n <= length s) by (assert (q * length s <= 1 * length s) by (apply Nat.mul_le_mono_r; lia); lia). eexists. split; [reflexivity|]. split; [rewrite firstn_length; lia|]. intros i Hi.
    rewrite nth_error_firstn' by exact Hi. rewrite Nat.mod_small by lia. reflexivity.
Qed.
Lemma pilot_symbols_short : forall s n, s <> [] -> length s < n -> pilot_symbols s false n = Raise RuntimeError.
Proof.
  intros s n Hs H. destruct s as [|z s]; [congruence|]. unfold pilot_symbols. set (k := length (z :: s)) in *. assert (0 < k) by (unfold k; cbn; lia).
  assert (2 <= (n + k - 1) / k) by (apply Nat.div_le_lower_bound; lia). destruct (Nat.ltb_spec 1 ((n + k - 1) / k)); [reflexivity|lia].
Qed.

(** ** Channel estimation *)
Definition affine (a b : C) (x : nat) : C := (a + b * RtoC (INR x))%C.
Lemma interp_affine : forall a b l x0 x, StronglySorted lt (x0 :: l) -> x0 <= x ->
  cinterp_from x0 (affine a b x0) (map (fun i => (i, affine a b i)) l) x = affine a b (min x (last (x0 :: l) 0)).
Proof.
  intros a b l. induction l as [|x1 l IH]; intros x0 x S H.
  - cbn. rewrite Nat.min_r by exact H. reflexivity.
  - inversion S as [|u us S1 S2]. assert (x0 < x1) by (inversion S2; assumption). cbn [map cinterp_from]. destruct (Nat.ltb_spec x x1) as [L|L].
    + assert (M : x1 <= last (x0 :: x1 :: l) 0).
      { inversion S1 as [|v vs T1 T2]. cbn [last]. destruct l as [|x2 l]; [lia|]. assert (I : In (last (x2 :: l) 0) (x2 :: l)) by (clear; revert x2; induction l as [|y l IH]; intro x2; [left; reflexivity|right; apply IH]).
        rewrite Forall_forall in T2. specialize (T2 _ I). change (match l with [] => x2 | _ :: _ => last l 0 end) with (last (x2 :: l) 0). lia. }
      rewrite Nat.min_l by lia. unfold affine. assert (N : RtoC (INR x1 - INR x0) <> RtoC 0). { intro E. apply RtoC_inj in E. assert (K : INR x1 = INR x0) by lra. apply INR_eq in K. lia. }
      assert (Q : ((a + b * RtoC (INR x1)) - (a + b * RtoC (INR x0)) = b * RtoC (INR x1 - INR x0))%C) by (rewrite RtoC_minus; ring).
      rewrite Q. replace (b * RtoC (INR x1 - INR x0) / RtoC (INR x1 - INR x0))%C with b by (field; exact N). rewrite RtoC_minus. ring.
    + rewrite IH by (auto; lia). cbn [last]. reflexivity.
Qed.
Lemma cinterp_affine : forall a b idx x, StronglySorted lt idx -> idx <> [] -> cinterp (map (fun i => (i, affine a b i)) idx) x = Ok (affine a b (clamp idx x)).
Proof.
  intros a b [|x0 l] x S N; [congruence|]. cbn [map cinterp]. f_equal. unfold clamp. cbn [hd].
  assert (M : x0 <= last (x0 :: l) 0). { inversion S as [|u us S1 S2]. destruct l as [|x1 l]; [cbn; lia|]. assert (I : In (last (x1 :: l) 0) (x1 :: l)) by (clear; revert x1; induction l as [|y l IH]; intro x1; [left; reflexivity|right; apply IH]).
    rewrite Forall_forall in S2. specialize (S2 _ I). change (last (x0 :: x1 :: l) 0) with (last (x1 :: l) 0). lia. }
  destruct (Nat.ltb_spec x x0) as [L|L].
  - rewrite Nat.min_l, Nat.max_l by lia. reflexivity.
  - rewrite interp_affine by auto. rewrite Nat.max_r by lia. reflexivity.
Qed.
Lemma interp_hit : forall l x0 y0 x y, StronglySorted lt (x0 :: map fst l) -> (x, y) = (x0, y0) \/ In (x, y) l -> cinterp_from x0 y0 l x = y.
Proof.
  intro l. induction l as [|[x1 y1] l IH]; intros x0 y0 x y S H.
  - destruct H as [H|[]]. injection H as -> ->. reflexivity.
  - inversion S as [|u us S1 S2]. cbn [map fst] in *. assert (x0 < x1) by (inversion S2; assumption). cbn [cinterp_from]. destruct H as [H|H].
    + injection H as -> ->. destruct (Nat.ltb_spec x0 x1); [|lia]. rewrite Rminus_eq_0. ring.
    + assert (x1 <= x). { destruct H as [H|H]; [injection H as -> _; lia|]. inversion S1 as [|v vs T1 T2]. rewrite Forall_forall in T2. assert (I : In x (map fst l)) by (apply (in_map fst) in H; exact H). specialize (T2 _ I). lia. }
      destruct (Nat.ltb_spec x x1); [lia|]. apply IH; [exact S1|]. destruct H as [H|H]; [left; congruence|right; exact H].
Qed.
Lemma cinterp_hit : forall pts x y, StronglySorted lt (map fst pts) -> In (x, y) pts -> cinterp pts x = Ok y.
Proof.
  intros [|[x0 y0] l] x y S H; [destruct H|]. cbn [cinterp]. f_equal. cbn [map fst] in S. assert (x0 <= x).
  { destruct H as [H|H]; [injection H as -> _; lia|]. inversion S as [|u us S1 S2]. rewrite Forall_forall in S2. assert (I : In x (map fst l)) by (apply (in_map fst) in H; exact H). specialize (S2 _ I). lia. }
  destruct (Nat.ltb_spec x x0); [lia|]. apply interp_hit; [exact S|]. destruct H as [H|H]; [left; congruence|right; exact H].
Qed.
Lemma mapM_total : forall {X Y} (f : X -> result Y) (g : X -> Y) l, (forall x, In x l -> f x = Ok (g x)) -> mapM f l = Ok (map g l).
Proof.
  intros X Y f g l. induction l as [|x l IH]; intro H; [reflexivity|]. cbn [mapM map]. rewrite (H x) by (left; reflexivity). cbn [bind]. rewrite IH by (intros y Hy; apply H; right; exact Hy). reflexivity.
Qed.
Lemma references_count : forall l, length (reference_indices l) = num_references l.
Proof. intro l. rewrite reference_list, map_length, seq_length. reflexivity. Qed.
Lemma combine_stems : forall {X Y Z} (g : X * Y -> Z) (a : list X) (b : list Y), length a = length b -> combine a (map g (combine a b)) = map (fun p => (fst p, g p)) (combine a b).
Proof. intros X Y Z g a. induction a as [|x a IH]; intros [|y b] H; cbn in *; try discriminate; [reflexivity|]. f_equal. apply IH. congruence. Qed.
Lemma estimate_affine : forall l pf P received a b, pf (num_references l) = Ok P -> length P = num_references l -> 0 < num_references l ->
  (forall k, k < num_references l -> at0 P k <> RtoC 0 /\ at0 received (reference_position l k) = (affine a b (reference_position l k) * at0 P k)%C) ->
  estimate l pf received = Ok (map (fun i => affine a b (clamp (reference_indices l) i)) (seq 0 (length received))).
Proof.
  intros l pf P received a b EP LP N H. unfold estimate. change (preamble l + num_pilots l + postamble l) with (num_references l). rewrite EP. cbn [bind].
  rewrite combine_stems by (rewrite references_count; auto).
  assert (Q : map (fun p => (fst p, (at0 received (fst p) / snd p)%C)) (combine (reference_indices l) P) = map (fun i => (i, affine a b i)) (reference_indices l)).
  { rewrite reference_list. rewrite <- LP in *. clear EP N. apply (nth_ext _ _ (0, RtoC 0) (0, RtoC 0)).
    - rewrite !map_length, combine_length, map_length, seq_length. lia.
    - intros k Hk. rewrite map_length, combine_length, map_length, seq_length in Hk. assert (K : k < length P) by lia. destruct (H k K) as [H1 H2].
      assert (C1 : nth k (combine (map (reference_position l) (seq 0 (length P))) P) (0, RtoC 0) = (reference_position l k, at0 P k)).
      { rewrite combine_nth by (rewrite map_length, seq_length; reflexivity). rewrite (nth_indep _ _ (reference_position l 0)) by (rewrite map_length, seq_length; exact K). rewrite map_nth, seq_nth by exact K. reflexivity. }
      rewrite (nth_indep _ _ ((fun p => (fst p, (at0 received (fst p) / snd p)%C)) (0, RtoC 0))) by (rewrite map_length, combine_length, map_length, seq_length; lia).
      rewrite (map_nth (fun p => (fst p, (at0 received (fst p) / snd p)%C))), C1. cbn [fst snd].
      rewrite (nth_indep _ _ ((fun i => (i, affine a b i)) 0)) by (rewrite !map_length, seq_length; exact K).
      rewrite (map_nth (fun i => (i, affine a b i))). rewrite (nth_indep _ _ (reference_position l 0)) by (rewrite map_length, seq_length; exact K). rewrite map_nth, seq_nth by exact K. cbn [Nat.add].
      rewrite H2. f_equal. field. exact H1. }
  rewrite Q. assert (Ne : reference_indices l <> []). { intro E. assert (X := references_count l). rewrite E in X. cbn in X. lia. }
  rewrite cinterp_affine by (auto using references_sorted). cbn [bind]. apply mapM_total. intros x _. apply cinterp_affine; [apply references_sorted|exact Ne].
Qed.
Lemma estimate_stems : forall l pf P received k e, pf (num_references l) = Ok P -> length P = num_references l -> k < num_references l -> reference_position l k < length received ->
  estimate l pf received = Ok e -> nth_error e (reference_position l k) = Some (at0 received (reference_position l k) / at0 P k)%C.
Proof.
  intros l pf P received k e EP LP K Hr E. unfold estimate in E. change (preamble l + num_pilots l + postamble l) with (num_references l) in E. rewrite EP in E. cbn [bind] in E.
  rewrite combine_stems in E by (rewrite references_count; auto). set (pts := map (fun p => (fst p, (at0 received (fst p) / snd p)%C)) (combine (reference_indices l) P)) in *.
  destruct (cinterp pts 0) as [z|x]; [|discriminate]. cbn [bind] in E. assert (L := mapM_length _ _ _ E). rewrite seq_length in L.
  assert (I : In (reference_position l k, (at0 received (reference_position l k) / at0 P k)%C) pts).
  { unfold pts. apply in_map_iff. exists (reference_position l k, at0 P k). split; [reflexivity|]. apply (nth_error_In _ k). apply nth_error_combine.
    - rewrite reference_list, nth_error_map', nth_error_seq. destruct (Nat.ltb_spec k (num_references l)); [reflexivity|lia].
    - apply nth_error_nth'. lia. }
  assert (S : StronglySorted lt (map fst pts)) by (unfold pts; rewrite map_map; rewrite (map_ext _ fst) by reflexivity; rewrite (map_fst_combine (reference_indices l) P) by (rewrite references_count; auto); apply references_sorted).
  assert (C := cinterp_hit pts _ _ S I).
  destruct (mapM_nth _ _ _ E (reference_position l k) (reference_position l k)) as [y [Y1 Y2]].
  { rewrite nth_error_seq. destruct (Nat.ltb_spec (reference_position l k) (length received)); [reflexivity|lia]. }
  congruence.
Qed.

(** ** From symbols to symbols *)
Lemma at0_gain : forall h y n, at0 (map (Cmult h) y) n = (h * at0 y n)%C.
Proof.
  intros h y n. unfold at0. destruct (Nat.lt_ge_cases n (length y)) as [L|L].
  - rewrite (nth_indep _ _ (h * RtoC 0)%C) by (rewrite map_length; exact L). apply map_nth.
  - rewrite !nth_overflow by (rewrite ?map_length; exact L). ring.
Qed.
Lemma demodulate_gain : forall sh n h y z, demodulate sh n y = Ok z -> demodulate sh n (map (Cmult h) y) = Ok (map (Cmult h) z).
Proof.
  intros sh n h y z. unfold demodulate. destruct y as [|y0 y]; [discriminate|]. set (Y := y0 :: y). destruct (rx sh) as [|r0 r] eqn:R; [discriminate|]. rewrite <- R in *.
  assert (NR : rx sh <> []) by congruence. assert (NY : Y <> []) by discriminate. assert (NH : map (Cmult h) Y <> []) by discriminate.
  destruct (convolve_ok Y (rx sh) NY NR) as [c [Ec [Lc Vc]]]. destruct (convolve_ok (map (Cmult h) Y) (rx sh) NH NR) as [d [Ed [Ld Vd]]]. rewrite Ec, Ed. cbn [bind].
  rewrite map_length in Ld. assert (K : d = map (Cmult h) c).
  { apply list_eq_at0; [rewrite map_length; lia|]. intros j _. rewrite at0_gain, Vd, Vc. unfold conv_at. rewrite <- csum_scal. apply csum_ext. intros i _. rewrite at0_gain. ring. }
  rewrite K, map_length. intro E. assert (Hz : z = map (fun j => at0 c (delay sh + j * spacing sh)) (filter (fun j => delay sh + j * spacing sh <? length c) (seq 0 n))) by congruence.
  rewrite Hz, map_map. f_equal. apply map_ext. intro j. apply at0_gain.
Qed.
Lemma equalize_gain : forall h f, h <> RtoC 0 -> equalize (map (Cmult h) f) (map (fun _ => h) f) = f.
Proof.
  intros h f Hh. unfold equalize. induction f as [|z f IH]; [reflexivity|]. cbn [map combine fst snd]. rewrite IH. f_equal. field. exact Hh.
Qed.
Lemma somes : forall {X} (f : list (option X)), (forall i, i < length f -> exists v, nth_error f i = Some (Some v)) -> exists g, f = map Some g.
Proof.
  intros X f. induction f as [|o f IH]; intro H; [exists []; reflexivity|]. destruct (H 0 ltac:(cbn; lia)) as [v V]. cbn in V. injection V as ->.
  destruct IH as [g G]. { intros i Hi. apply (H (S i)). cbn. lia. } exists (v :: g). cbn [map]. congruence.
Qed.
Lemma place_defined : forall l pf symbols P, pf (num_references l) = Ok P -> length P = num_references l -> length symbols = data l ->
  exists f, place l pf symbols = Ok (map Some f) /\ length f = frame_symbols l /\
    (forall k, k < data l -> nth_error f (data_position l k) = nth_error symbols k) /\
    (forall k, k < num_references l -> nth_error f (reference_position l k) = nth_error P k).
Proof.
  intros l pf symbols P EP LP LS. destruct (place_ok l pf symbols P EP LP LS) as [f [Ef [Lf [Df Rf]]]]. destruct (somes f) as [g G].
  - intros i Hi. rewrite Lf in Hi. assert (I : In i (seq 0 (frame_symbols l))) by (apply in_seq; lia). apply (Permutation_in _ (Permutation_sym (positions_permutation l))) in I.
    apply in_app_iff in I. destruct I as [I|I]; apply in_map_iff in I; destruct I as [k [<- K]]; apply in_seq in K.
    + rewrite Rf by lia. rewrite nth_error_map'. destruct (nth_error P k) eqn:E; [eexists; reflexivity|]. apply nth_error_None in E. lia.
    + rewrite Df by lia. rewrite nth_error_map'. destruct (nth_error symbols k) eqn:E; [eexists; reflexivity|]. apply nth_error_None in E. lia.
  - exists g. assert (J : forall (a b : option C), option_map Some a = option_map Some b -> a = b) by (intros [a|] [b|]; cbn; congruence). split; [congruence|]. rewrite G, map_length in Lf. split; [exact Lf|]. split.
    + intros k Hk. apply J. specialize (Df k Hk). rewrite G, !nth_error_map' in Df. exact Df.
    + intros k Hk. apply J. specialize (Rf k Hk). rewrite G, !nth_error_map' in Rf. exact Rf.
Qed.
Lemma write_rejects : forall {X} idx (vals : list X) l, length vals <> length idx -> length vals <> 1 -> write idx vals l = Raise ValueError.
Proof.
  intros X idx vals l A B. unfold write. destruct (Nat.eqb_spec (length vals) (length idx)); [congruence|]. destruct vals as [|v [|w vals]]; try reflexivity. cbn in B. lia.
Qed.
Lemma place_rejects : forall l pf symbols P, pf (num_references l) = Ok P -> length P = num_references l -> length symbols <> data l -> length symbols <> 1 ->
  place l pf symbols = Raise ValueError.
Proof.
  intros l pf symbols P EP LP A B. destruct (place_ok l pf (List.repeat (RtoC 0) (data l)) P EP LP ltac:(apply repeat_length)) as [f [Ef _]].
  unfold num_references in EP. unfold place in *. rewrite EP in *. cbn [bind] in *.
  match type of Ef with bind ?x _ = _ => destruct x as [f1|] end; [|discriminate]. cbn [bind] in *.
  match type of Ef with bind ?x _ = _ => destruct x as [f2|] end; [|discriminate]. cbn [bind] in *.
  match type of Ef with bind ?x _ = _ => destruct x as [f3|] end; [|discriminate]. cbn [bind] in *.
  apply write_rejects; rewrite !map_length; [rewrite data_count|]; assumption.
Qed.
Lemma pilot_prefix : forall sh os pre s y p t, spacing sh = os -> 0 < os -> tx sh <> [] -> 0 < pre -> pre <= length s ->
  modulate sh (length s) s = Ok y -> pilot_signal sh os pre (firstn pre s) = Ok p -> t < pre * os -> at0 y t = at0 p t.
Proof.
  intros sh os pre s y p t Hs Ho Ht Hp Hl Ey Ep Ht'. assert (Ns : s <> []) by (intro E; rewrite E in Hl; cbn in Hl; lia). assert (Lf : length (firstn pre s) = pre) by (rewrite firstn_length; lia).
  assert (Nf : firstn pre s <> []) by (intro E; rewrite E in Lf; cbn in Lf; lia). assert (P0 : 0 < spacing sh) by lia. destruct (frame_ok sh s P0 Ht Ns) as [y' [Ey' [_ Vy]]].
  destruct (frame_ok sh (firstn pre s) P0 Ht Nf) as [p' [Ep' [_ Vp]]]. assert (Y : y' = y) by congruence.
  assert (Q : p' = p). { unfold pilot_signal in Ep. destruct (Nat.eqb_spec pre 0); [lia|]. unfold modulate in Ep'. rewrite Lf, Hs in Ep'. congruence. }
  rewrite <- Y, <- Q, Vy, Vp, Lf. replace (length s) with (pre + (length s - pre)) by lia. rewrite csum_app.
  rewrite (csum_ext (fun k => at0 s (pre + k) * (if (pre + k) * spacing sh <=? t then at0 (tx sh) (t - (pre + k) * spacing sh) else RtoC 0))%C (fun _ => RtoC 0)).
  - rewrite csum_0, Cplus_0_r. apply csum_ext. intros m Hm. f_equal. unfold at0. symmetry. assert (E := nth_error_firstn' pre s m Hm).
    rewrite (nth_error_nth' (firstn pre s) (RtoC 0)) in E by lia. rewrite (nth_error_nth' s (RtoC 0)) in E by lia. injection E. auto.
  - intros k Hk. rewrite Hs. destruct (Nat.leb_spec ((pre + k) * os) t) as [L|L]; [|ring]. exfalso. assert (pre * os <= (pre + k) * os) by (apply Nat.mul_le_mono_r; lia). lia.
Qed.
