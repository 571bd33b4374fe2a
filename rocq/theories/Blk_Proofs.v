From Coq Require Import List Reals Bool Arith ZArith Lia Lra.
From Coquelicot Require Import Complex.
From Verif Require Import Base BaseLemmas Cplx Cplx_Proofs Amp_Proofs Blk_Model Blk_Spec.
Import ListNotations.
Open Scope R_scope.

Lemma hd_nonneg : forall l, Forall (fun f => 0 <= f) l -> 0 <= hd 0 l.
Proof. intros l F. destruct F; cbn; lra. Qed.
Lemma create_ok : forall rows n fs ps, length fs = length rows -> length ps = length rows -> Forall (fun f => 0 <= f) fs -> Forall (fun f => 0 <= f) ps ->
  create rows n fs ps = Ok (Rf rows n fs ps (hd 0 fs) (hd 0 ps)).
Proof.
  intros rows n fs ps Lf Lp Ff Fp. unfold create. pose proof (hd_nonneg _ Ff). pose proof (hd_nonneg _ Fp).
  destruct (Rlt_dec (hd 0 fs) 0); [lra|]. destruct (Rlt_dec (hd 0 ps) 0); [lra|]. rewrite Lf, Lp, Nat.eqb_refl. reflexivity.
Qed.
Lemma copy_ok : forall s, well_formed s -> copy s = Ok (Rf (streams s) (samples s) (freqs s) (powers s) (hd 0 (freqs s)) (hd 0 (powers s))).
Proof. intros s [Lf [Lp [_ [Ff Fp]]]]. apply create_ok; assumption. Qed.
Lemma derive_ok : forall s rows, (length rows <= length (freqs s))%nat -> (length rows <= length (powers s))%nat ->
  derive s rows = Ok (Rf rows (samples s) (firstn (length rows) (freqs s)) (firstn (length rows) (powers s)) (cf s) (np s)).
Proof. intros s rows Hf Hp. unfold derive. rewrite !firstn_length_le by assumption. rewrite Nat.eqb_refl. reflexivity. Qed.
Lemma derive_same : forall s rows, well_formed s -> length rows = length (streams s) ->
  derive s rows = Ok (Rf rows (samples s) (freqs s) (powers s) (cf s) (np s)).
Proof.
  intros s rows [Lf [Lp _]] L. rewrite derive_ok by lia. rewrite !firstn_all2 by lia. reflexivity.
Qed.
Lemma stream_ok : forall s i row, well_formed s -> nth_error (streams s) i = Some row ->
  stream s i = Ok (Rf [row] (samples s) [nth i (freqs s) 0] [nth i (powers s) 0] (cf s) (np s)).
Proof.
  intros s i row [Lf [Lp _]] H. unfold stream. rewrite H. assert (Hi : (i < length (streams s))%nat) by (apply nth_error_Some; congruence).
  rewrite derive_ok by (cbn [length]; lia). reflexivity.
Qed.
Lemma nth_map_lt : forall {X Y} (f : X -> Y) l n d d', (n < length l)%nat -> nth n (map f l) d = f (nth n l d').
Proof. intros X Y f l n d d' H. rewrite (nth_indep (map f l) d (f d')) by (rewrite map_length; exact H). apply map_nth. Qed.
Lemma nth_numbered : forall {X Y} (f : nat -> X -> Y) l n d d', (n < length l)%nat -> nth n (map (fun q => f (fst q) (snd q)) (combine (seq 0 (length l)) l)) d = f n (nth n l d').
Proof.
  intros X Y f l n d d' H. rewrite (nth_map_lt _ _ _ _ (0%nat, d')) by (rewrite combine_length, seq_length; lia).
  rewrite combine_nth by apply seq_length. cbn [fst snd]. rewrite seq_nth by exact H. reflexivity.
Qed.
Lemma length_numbered : forall {X Y} (f : nat * X -> Y) l, length (map f (combine (seq 0 (length l)) l)) = length l.
Proof. intros X Y f l. rewrite map_length, combine_length, seq_length. lia. Qed.
Lemma nth_seqmap : forall {Y} (f : nat -> Y) k n d, (n < k)%nat -> nth n (map f (seq 0 k)) d = f n.
Proof. intros Y f k n d H. rewrite (nth_map_lt f _ _ _ 0%nat) by (rewrite seq_length; exact H). rewrite seq_nth by exact H. reflexivity. Qed.

(** ** Sums of streams *)
Lemma add_rows_from : forall n rows acc, length acc = n -> Forall (fun r => length r = n) rows ->
  length (fold_left (fun a row => map (fun p => (fst p + snd p)%C) (combine a row)) rows acc) = n /\
  forall k, (k < n)%nat -> nth k (fold_left (fun a row => map (fun p => (fst p + snd p)%C) (combine a row)) rows acc) (RtoC 0) = (nth k acc (RtoC 0) + csum (fun i => nth k (nth i rows []) (RtoC 0)) (length rows))%C.
Proof.
  intros n rows. induction rows as [|row rows IH]; intros acc La F.
  - cbn [fold_left length csum]. split; [exact La|]. intros k Hk. ring.
  - inversion F as [|x l Hr Fr]; clear F. cbn [fold_left length].
    assert (Lm : length (map (fun p : C * C => (fst p + snd p)%C) (combine acc row)) = n) by (rewrite map_length, combine_length; lia).
    destruct (IH _ Lm Fr) as [L1 V1]. split; [exact L1|]. intros k Hk. rewrite V1 by exact Hk.
    rewrite (nth_map_lt _ _ _ _ (RtoC 0, RtoC 0)) by (rewrite combine_length; lia). rewrite combine_nth by lia. cbn [fst snd].
    rewrite csum_S_l. cbn [nth]. ring.
Qed.
Lemma nth_repeat_zero : forall n k, nth k (repeat (RtoC 0) n) (RtoC 0) = RtoC 0.
Proof. induction n as [|n IH]; intros [|k]; cbn; auto. Qed.

(** ** Products of streams *)
Lemma nth_products : forall (m : C -> C -> C) a b n, length a = length b -> (n < length a)%nat ->
  nth n (map (fun p => m (fst p) (snd p)) (combine a b)) (RtoC 0) = m (nth n a (RtoC 0)) (nth n b (RtoC 0)).
Proof.
  intros m a b n L H. rewrite (nth_map_lt _ _ _ _ (RtoC 0, RtoC 0)) by (rewrite combine_length; lia). rewrite combine_nth by exact L. reflexivity.
Qed.
Lemma mixer_eq : forall d x a b, well_formed x -> streams x = [a; b] ->
  mixer d x = set_frequency (Rf [map (fun p => (match d with Up => fun z w => z * w | Down => fun z w => z * conj w end)%C (fst p) (snd p)) (combine a b)] (samples x) [nth 0 (freqs x) 0] [nth 0 (powers x) 0] (cf x) (np x))
    (match d with Up => nth 0 (freqs x) 0 + nth 1 (freqs x) 0 | Down => nth 0 (freqs x) 0 - nth 1 (freqs x) 0 end).
Proof.
  intros d x a b W S. unfold mixer. rewrite (stream_ok x 0 a W) by (rewrite S; reflexivity). cbn [bind]. rewrite (stream_ok x 1 b W) by (rewrite S; reflexivity). cbn [bind].
  rewrite derive_ok by (cbn; lia). cbn [bind]. destruct d; reflexivity.
Qed.
Lemma two_frequencies : forall x a b, well_formed x -> streams x = [a; b] -> exists f g p q, freqs x = [f; g] /\ powers x = [p; q] /\ 0 <= f /\ 0 <= g /\ length a = samples x /\ length b = samples x.
Proof.
  intros x a b [Lf [Lp [Fr [Ff Fp]]]] S. rewrite S in *. cbn [length] in *. destruct (freqs x) as [|f [|g [|]]]; try discriminate. destruct (powers x) as [|p [|q [|]]]; try discriminate.
  inversion Fr as [|u v A Fr']. inversion Fr' as [|u' v' B _]. inversion Ff as [|w y F0 Ff']. inversion Ff' as [|w' y' F1 _]. exists f, g, p, q. repeat split; assumption.
Qed.
Lemma one_stream : forall x a, well_formed x -> streams x = [a] -> exists f p, freqs x = [f] /\ powers x = [p] /\ 0 <= f /\ 0 <= p /\ length a = samples x.
Proof.
  intros x a [Lf [Lp [Fr [Ff Fp]]]] S. rewrite S in *. cbn [length] in *. destruct (freqs x) as [|f [|]]; try discriminate. destruct (powers x) as [|p [|]]; try discriminate.
  inversion Fr as [|u v A _]. inversion Ff as [|w y F0 _]. inversion Fp as [|w' y' F1 _]. exists f, p. repeat split; assumption.
Qed.
Lemma ideal_eq : forall d lo x a, well_formed x -> streams x = [a] -> exists f p, freqs x = [f] /\ powers x = [p] /\
  ideal_mixer d lo x = Ok (Rf [a] (samples x) [match d with Up => Rabs (f + lo) | Down => Rabs (f - lo) end] [p] (match d with Up => Rabs (f + lo) | Down => Rabs (f - lo) end) p).
Proof.
  intros d lo x a W S. destruct (one_stream x a W S) as [f [p [Ef [Ep [Hf [Hp La]]]]]]. exists f, p. split; [exact Ef|]. split; [exact Ep|].
  unfold ideal_mixer. rewrite (stream_ok x 0 a W) by (rewrite S; reflexivity). cbn [bind]. unfold copy. cbn [streams samples freqs powers]. rewrite Ef, Ep. cbn [nth].
  rewrite create_ok; [|reflexivity|reflexivity|constructor; [exact Hf|constructor]|constructor; [exact Hp|constructor]]. cbn [bind hd]. unfold set_frequency. cbn [streams samples freqs powers np tl].
  destruct d; (destruct (Rlt_dec _ 0) as [H|_]; [pose proof (Rabs_pos (f + lo)); pose proof (Rabs_pos (f - lo)); lra|reflexivity]).
Qed.
Lemma conj_times' : forall z : C, (conj z * z)%C = RtoC (Cmod z ^ 2).
Proof. intros [a b]. unfold conj, Cmod, Cmult, RtoC. cbn [fst snd]. rewrite <- Rsqr_pow2, Rsqr_sqrt by nra. f_equal; ring. Qed.
Ltac wf := repeat split; cbn [streams samples freqs powers length single beside tl]; repeat (apply Forall_cons || apply Forall_nil); cbn [length]; try assumption; try lra; try reflexivity; try congruence.

(** ** Ramps *)
Lemma truncate_floor : forall x, 0 <= x -> exists n, truncate x = Z.of_nat n /\ INR n <= x < INR n + 1.
Proof.
  intros x Hx. unfold truncate. destruct (Rle_dec 0 x) as [_|N]; [|contradiction]. destruct (base_Int_part x) as [H1 H2].
  assert (P : (0 <= Int_part x)%Z). { assert (IZR (-1) < IZR (Int_part x)) by (cbn; lra). apply lt_IZR in H. lia. }
  exists (Z.to_nat (Int_part x)). rewrite INR_IZR_INZ, !Z2Nat.id by exact P. split; [reflexivity|]. lra.
Qed.
Lemma floor_unique : forall a b x, INR a <= x < INR a + 1 -> INR b <= x < INR b + 1 -> a = b.
Proof.
  intros a b x Ha Hb. assert (INR a < INR (S b)) by (rewrite S_INR; lra). assert (INR b < INR (S a)) by (rewrite S_INR; lra). apply INR_lt in H, H0. lia.
Qed.
Lemma chirp_eq : forall rate bw slope interval, 0 < rate -> 0 < bw -> 0 < slope -> 0 < interval -> exists g k, INR g <= interval * rate < INR g + 1 /\ INR k <= bw / slope * rate < INR k + 1 /\
  chirp rate bw slope interval = Ok (map (fun n => let t := INR n / rate in cis (PI * (- bw * t + slope * t ^ 2))) (seq 0 (Nat.min g k)) ++ repeat (RtoC 0) (g - Nat.min g k)).
Proof.
  intros rate bw slope interval Hr Hb Hs Hi. destruct (truncate_floor (interval * rate)) as [g [Eg Bg]]; [apply Rmult_le_pos; lra|].
  assert (P : 0 <= bw / slope * rate) by (apply Rmult_le_pos; [apply Rlt_le, Rdiv_lt_0_compat; assumption|lra]).
  destruct (truncate_floor _ P) as [k [Ek Bk]]. exists g, k. split; [exact Bg|]. split; [exact Bk|].
  unfold chirp. rewrite Eg, Ek. destruct (Req_EM_T slope 0); [lra|]. rewrite <- Nat2Z.inj_min. destruct (Z.leb_spec 0 (Z.of_nat (Nat.min g k))) as [_|N]; [|lia].
  rewrite !Nat2Z.id. destruct (Rlt_dec 0 slope); [reflexivity|contradiction].
Qed.
Lemma nth_concat_repeat : forall {X} (c : list X) m i n d, (i < m)%nat -> (n < length c)%nat -> nth (i * length c + n) (concat (repeat c m)) d = nth n c d.
Proof.
  intros X c m. induction m as [|m IH]; intros i n d Hi Hn; [lia|]. cbn [repeat concat]. destruct i as [|i].
  - cbn [Nat.mul Nat.add]. apply app_nth1. exact Hn.
  - rewrite app_nth2 by (cbn; lia). replace (S i * length c + n - length c)%nat with (i * length c + n)%nat by (cbn; lia). apply IH; lia.
Qed.
Lemma length_concat_repeat : forall {X} (c : list X) m, length (concat (repeat c m)) = (m * length c)%nat.
Proof. intros X c m. induction m as [|m IH]; cbn [repeat concat]; [reflexivity|]. rewrite app_length, IH. cbn. lia. Qed.
