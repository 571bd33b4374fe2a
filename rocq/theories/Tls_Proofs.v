(** Proofs about tiles and batch jobs *)
From Coq Require Import Ascii String List Arith ZArith Bool Lia.
Import ListNotations.
From Verif Require Import Base BaseLemmas Tls_Model Tls_Spec.
Local Open Scope nat_scope.

(** ** Strings *)
Lemma app_assoc_s : forall a b c : string, ((a ++ b) ++ c)%string = (a ++ (b ++ c))%string.
Proof. induction a as [|x a IH]; intros; cbn [append]; [reflexivity|]. rewrite IH. reflexivity. Qed.
Lemma prefix_app : forall k r, prefix k (k ++ r) = true.
Proof. induction k as [|c k IH]; intro r; [destruct r; reflexivity|]. cbn [append prefix]. destruct (ascii_dec c c); [apply IH|congruence]. Qed.
(** A difference within both strings *)
Fixpoint differ (k s : string) : bool :=
  match k, s with String a k', String b r => if ascii_dec a b then differ k' r else true | _, _ => false end.
Lemma differ_prefix : forall k s r, differ k s = true -> prefix k (s ++ r) = false.
Proof. induction k as [|a k IH]; intros [|b s] r H; cbn [differ append prefix] in *; try discriminate. destruct (ascii_dec a b); [apply IH; exact H|reflexivity]. Qed.
Fixpoint clean (k s : string) : bool := match s with EmptyString => true | String c r => differ k s && clean k r end.
Lemma replace_clean : forall k v s r, clean k s = true -> replace k v (s ++ r) = (s ++ replace k v r)%string.
Proof.
  intros k v s r. induction s as [|c s IH]; intro H; [reflexivity|]. cbn [clean] in H. apply andb_true_iff in H. destruct H as [D H]. specialize (IH H). pose proof (differ_prefix k (String c s) r D) as P. unfold replace in *. cbn [append] in *. cbn [replace_from]. rewrite P, IH. reflexivity.
Qed.
Lemma replace_skip : forall k v a r, replace_from k v (String.length a) (a ++ r) = replace k v r.
Proof. induction a as [|c a IH]; intro r; [reflexivity|]. cbn [String.length append replace_from]. apply IH. Qed.
Lemma replace_key : forall c k v r, replace (String c k) v (String c k ++ r) = (v ++ replace (String c k) v r)%string.
Proof.
  intros c k v r. pose proof (prefix_app (String c k) r) as P. unfold replace at 1. cbn [append] in *. cbn [replace_from]. rewrite P. f_equal. cbn [String.length]. rewrite Nat.sub_succ, Nat.sub_0_r. apply replace_skip.
Qed.
Lemma clean_no_dollar : forall k s, no_dollar s -> clean (String "$" k) s = true.
Proof. induction s as [|c s IH]; intro H; [reflexivity|]. cbn [no_dollar] in H. destruct H as [H1 H2]. cbn [clean differ]. destruct (ascii_dec "$" c) as [E|_]; [congruence|]. apply IH. exact H2. Qed.
Lemma replace_end : forall k v s, clean k s = true -> replace k v s = s.
Proof. intros k v s. induction s as [|c s IH]; intro H; [reflexivity|]. cbn [clean] in H. apply andb_true_iff in H. destruct H as [D H]. specialize (IH H). pose proof (differ_prefix k (String c s) "" D) as P. assert (E : forall t, (t ++ "")%string = t) by (induction t as [|x t IHt]; cbn [append]; congruence). rewrite E in P. unfold replace in *. cbn [replace_from]. rewrite P, IH. reflexivity. Qed.
Definition piece0 : string := "#!/bin/bash
#SBATCH --job-name="%string.
Definition piece1 : string := "
#SBATCH --nodes="%string.
Definition piece2 : string := "
#SBATCH --exclusive
#SBATCH --ntasks="%string.
Definition piece3 : string := "

# Getting the node names
nodes=$(scontrol show hostnames ""$SLURM_JOB_NODELIST"")
nodes_array=($nodes)

head_node=${nodes_array[0]}
head_node_ip=$(srun --nodes=1 --ntasks=1 -w ""$head_node"" hostname --ip-address)
head_node_port=6379

# Spinning up the head node
echo ""Starting ray head at $head_node""
srun --disable-status --kill-on-bad-exit=0 --nodes=1 --ntasks=1 -w ""$head_node"" ray start --head --node-ip-address=""$head_node_ip"" --port=$head_node_port --block &

# Spinning up worker nodes
worker_num=$((SLURM_JOB_NUM_NODES - 1))
for ((i = 1; i <= worker_num; i++)); do
    node_i=${nodes_array[$i]}
    echo ""Starting ray worker #$i at $node_i""
    srun --disable-status --kill-on-bad-exit=0 --nodes=1 --ntasks=1 -w ""$node_i"" ray start --address ""$head_node_ip:$head_node_port"" --block &
done

# Running the original script
RAY_ADDRESS=""$head_node_ip:$head_node_port"" python "%string.
Definition piece4 : string := "

# Cleanup after execution, i.e. stop the worker nodes
for ((i = SLURM_JOB_NUM_NODES - 1; i >= 0; i--)); do
    node_i=${nodes_array[$i]}
    echo ""Stopping ray at $node_i""
    srun --disable-status --nodes=1 --ntasks=1 -w ""$node_i"" ray stop --force &
done
"%string.
Lemma sbatch_pieces : sbatch = (piece0 ++ "$JOB_NAME" ++ piece1 ++ "$NUM_NODES" ++ piece2 ++ "$NUM_NODES" ++ piece3 ++ "$SCRIPT" ++ piece4)%string.
Proof. reflexivity. Qed.
Lemma job_pieces : forall name nodes script, job name nodes script = (piece0 ++ name ++ piece1 ++ nodes ++ piece2 ++ nodes ++ piece3 ++ script ++ piece4)%string.
Proof. reflexivity. Qed.
Lemma clean0_name : clean "$JOB_NAME" piece0 = true.
Proof. vm_compute. reflexivity. Qed.
Lemma clean0_nodes : clean "$NUM_NODES" piece0 = true.
Proof. vm_compute. reflexivity. Qed.
Lemma clean0_script : clean "$SCRIPT" piece0 = true.
Proof. vm_compute. reflexivity. Qed.
Lemma clean1_name : clean "$JOB_NAME" piece1 = true.
Proof. vm_compute. reflexivity. Qed.
Lemma clean1_nodes : clean "$NUM_NODES" piece1 = true.
Proof. vm_compute. reflexivity. Qed.
Lemma clean1_script : clean "$SCRIPT" piece1 = true.
Proof. vm_compute. reflexivity. Qed.
Lemma clean2_name : clean "$JOB_NAME" piece2 = true.
Proof. vm_compute. reflexivity. Qed.
Lemma clean2_nodes : clean "$NUM_NODES" piece2 = true.
Proof. vm_compute. reflexivity. Qed.
Lemma clean2_script : clean "$SCRIPT" piece2 = true.
Proof. vm_compute. reflexivity. Qed.
Lemma clean3_name : clean "$JOB_NAME" piece3 = true.
Proof. vm_compute. reflexivity. Qed.
Lemma clean3_nodes : clean "$NUM_NODES" piece3 = true.
Proof. vm_compute. reflexivity. Qed.
Lemma clean3_script : clean "$SCRIPT" piece3 = true.
Proof. vm_compute. reflexivity. Qed.
Lemma clean4_name : clean "$JOB_NAME" piece4 = true.
Proof. vm_compute. reflexivity. Qed.
Lemma clean4_nodes : clean "$NUM_NODES" piece4 = true.
Proof. vm_compute. reflexivity. Qed.
Lemma clean4_script : clean "$SCRIPT" piece4 = true.
Proof. vm_compute. reflexivity. Qed.
Fixpoint absent (c : ascii) (s : string) : bool := match s with EmptyString => true | String a r => (if ascii_dec a c then false else true) && absent c r end.
Lemma prefix_until : forall k s c r, absent c k = true -> prefix k (s ++ String c r) = prefix k s.
Proof.
  induction k as [|a k IH]; intros s c r H; [destruct s; reflexivity|]. cbn [absent] in H. destruct (ascii_dec a c) as [|N]; [discriminate|]. destruct s as [|b s]; cbn [append prefix].
  - destruct (ascii_dec a c); [contradiction|reflexivity].
  - destruct (ascii_dec a b); [apply IH; exact H|reflexivity].
Qed.
Lemma prefix_length : forall k s, prefix k s = true -> String.length k <= String.length s.
Proof. induction k as [|a k IH]; intros [|b s] H; cbn [prefix String.length] in *; try lia; try discriminate. destruct (ascii_dec a b); [apply IH in H; lia|discriminate]. Qed.
Lemma replace_from_until : forall k v c r s skip, absent c k = true -> skip <= String.length s -> replace_from k v skip (s ++ String c r) = (replace_from k v skip s ++ replace k v (String c r))%string.
Proof.
  intros k v c r s. induction s as [|b s IH]; intros skip H L.
  - cbn [String.length] in L. assert (skip = 0) by lia. subst skip. reflexivity.
  - cbn [append replace_from]. destruct skip as [|skip].
    + pose proof (prefix_until k (String b s) c r H) as P. cbn [append] in P. rewrite P. destruct (prefix k (String b s)) eqn:E.
      * apply prefix_length in E. cbn [String.length] in E. rewrite IH by (try exact H; lia). rewrite app_assoc_s. reflexivity.
      * rewrite IH by (try exact H; lia). reflexivity.
    + cbn [String.length] in L. apply IH; [exact H|lia].
Qed.
Lemma replace_until : forall k v c r s, absent c k = true -> replace k v (s ++ String c r) = (replace k v s ++ replace k v (String c r))%string.
Proof. intros. apply replace_from_until; [assumption|lia]. Qed.
Lemma replace_line : forall k v s r, absent "010" k = true -> replace k v (s ++ piece1 ++ r) = (replace k v s ++ replace k v (piece1 ++ r))%string.
Proof. intros k v s r H. unfold piece1. cbn [append]. apply replace_until. exact H. Qed.
Lemma batch_generic : forall J N T p0 p1 p2 p3 p4 s n,
  (forall p, In p [p0; p1; p2; p3; N; T] -> forall v r, replace J v (p ++ r) = (p ++ replace J v r)%string) -> (forall v r, replace J v (J ++ r) = (v ++ replace J v r)%string) -> (forall v, replace J v p4 = p4) ->
  (forall p, In p [p0; p1; p2; p3; T] -> forall v r, replace N v (p ++ r) = (p ++ replace N v r)%string) -> (forall v r, replace N v (N ++ r) = (v ++ replace N v r)%string) -> (forall v, replace N v p4 = p4) ->
  (forall p, In p [p0; p1; p2; p3; n] -> forall v r, replace T v (p ++ r) = (p ++ replace T v r)%string) -> (forall v r, replace T v (T ++ r) = (v ++ replace T v r)%string) -> (forall v, replace T v p4 = p4) ->
  (forall v w r, replace N v (w ++ p1 ++ r) = (replace N v w ++ replace N v (p1 ++ r))%string) -> (forall v w r, replace T v (w ++ p1 ++ r) = (replace T v w ++ replace T v (p1 ++ r))%string) ->
  replace T s (replace N n (replace J s (p0 ++ J ++ p1 ++ N ++ p2 ++ N ++ p3 ++ T ++ p4))) = (p0 ++ replace T s (replace N n s) ++ p1 ++ n ++ p2 ++ n ++ p3 ++ s ++ p4)%string.
Proof.
  intros J N T p0 p1 p2 p3 p4 s n J1 J2 J3 N1 N2 N3 T1 T2 T3 NL TL.
  rewrite (J1 p0), J2, (J1 p1), (J1 N), (J1 p2), (J1 N), (J1 p3), (J1 T), J3 by (cbn [In]; tauto).
  rewrite (N1 p0), NL, (N1 p1), N2, (N1 p2), N2, (N1 p3), (N1 T), N3 by (cbn [In]; tauto).
  rewrite (T1 p0), TL, (T1 p1), (T1 n), (T1 p2), (T1 n), (T1 p3), T2, T3 by (cbn [In]; tauto). reflexivity.
Qed.
Lemma batch_written : forall script nodes, no_dollar nodes ->
  batch_script script nodes = job (replace "$SCRIPT" script (replace "$NUM_NODES" nodes script)) nodes script.
Proof.
  intros s n Hn. unfold batch_script. rewrite sbatch_pieces, job_pieces. apply batch_generic.
  - intros p Hp v r. apply replace_clean. destruct Hp as [<-|[<-|[<-|[<-|[<-|[<-|[]]]]]]]; [apply clean0_name|apply clean1_name|apply clean2_name|apply clean3_name|reflexivity|reflexivity].
  - intros. apply replace_key.
  - intros. apply replace_end. apply clean4_name.
  - intros p Hp v r. apply replace_clean. destruct Hp as [<-|[<-|[<-|[<-|[<-|[]]]]]]; [apply clean0_nodes|apply clean1_nodes|apply clean2_nodes|apply clean3_nodes|reflexivity].
  - intros. apply replace_key.
  - intros. apply replace_end. apply clean4_nodes.
  - intros p Hp v r. apply replace_clean. destruct Hp as [<-|[<-|[<-|[<-|[<-|[]]]]]]; [apply clean0_script|apply clean1_script|apply clean2_script|apply clean3_script|apply clean_no_dollar; exact Hn].
  - intros. apply replace_key.
  - intros. apply replace_end. apply clean4_script.
  - intros. apply replace_line. reflexivity.
  - intros. apply replace_line. reflexivity.
Qed.

(** ** Tiles *)
Lemma rounded_cases : forall a b, 0 < b -> a = b * (a / b) + a mod b /\ a mod b < b /\ ((rounded a b = a / b /\ 2 * (a mod b) <= b) \/ (rounded a b = a / b + 1 /\ b <= 2 * (a mod b))).
Proof.
  intros a b H. split; [apply Nat.div_mod; lia|]. split; [apply Nat.mod_upper_bound; lia|]. unfold rounded. cbv zeta. destruct (Nat.ltb_spec (2 * (a mod b)) b); [left; split; [reflexivity|lia]|]. destruct (Nat.ltb_spec b (2 * (a mod b))); [right; split; [reflexivity|lia]|]. destruct (Nat.even (a / b)); [left|right]; split; try reflexivity; lia.
Qed.
Lemma rounded_mono : forall a a' b, 0 < b -> a <= a' -> rounded a b <= rounded a' b.
Proof.
  intros a a' b H L. pose proof (rounded_cases a b H) as (E & M & C). pose proof (rounded_cases a' b H) as (E' & M' & C'). pose proof (Nat.div_le_mono a a' b ltac:(lia) L) as D.
  destruct (Nat.eq_dec (a / b) (a' / b)) as [Q|Q]; [|lia]. rewrite Q in E.
  assert (R : a mod b <= a' mod b) by lia. unfold rounded. cbv zeta. rewrite Q. destruct (Nat.ltb_spec (2 * (a mod b)) b); destruct (Nat.ltb_spec (2 * (a' mod b)) b); destruct (Nat.ltb_spec b (2 * (a mod b))); destruct (Nat.ltb_spec b (2 * (a' mod b))); destruct (Nat.even (a' / b)); lia.
Qed.
Lemma rounded_exact : forall c r, 0 < c -> rounded (c * r) c = r.
Proof. intros c r H. unfold rounded. cbv zeta. rewrite (Nat.mul_comm c r), Nat.div_mul, Nat.mod_mul by lia. destruct (Nat.ltb_spec (2 * 0) c); [reflexivity|lia]. Qed.
Lemma grow_spec : forall fuel n c0 r0 c, 0 < c0 -> 0 < r0 -> c0 <= c -> n <= c + fuel ->
  exists c', grow fuel n (c0, r0) c (rounded (c * r0) c0) = (c', rounded (c' * r0) c0) /\ c <= c' /\ n <= c' * rounded (c' * r0) c0 /\
  (c' = c \/ (c < c' /\ (c' - 1) * rounded ((c' - 1) * r0) c0 < n)).
Proof.
  induction fuel as [|f IH]; intros n c0 r0 c H1 H2 H3 H4.
  - exists c. assert (Q : 1 <= rounded (c * r0) c0). { pose proof (rounded_mono (c0 * r0) (c * r0) c0 H1 ltac:(nia)) as M. rewrite rounded_exact in M by exact H1. lia. } split; [reflexivity|]. split; [lia|]. split; [nia|]. left. reflexivity.
  - cbn [grow fst snd]. destruct (Nat.ltb_spec (c * rounded (c * r0) c0) n) as [L|L].
    + assert (Q : Nat.max (rounded ((c + 1) * r0) c0) (rounded (c * r0) c0) = rounded ((c + 1) * r0) c0) by (apply Nat.max_l; apply rounded_mono; [exact H1|nia]). rewrite Q. destruct (IH n c0 r0 (c + 1) H1 H2 ltac:(lia) ltac:(lia)) as (c' & E & A & B & D). exists c'. split; [exact E|]. split; [lia|]. split; [exact B|]. right. split; [lia|]. destruct D as [->|[_ D]]; [|exact D]. replace (c + 1 - 1) with c by lia. exact L.
    + exists c. split; [reflexivity|]. split; [lia|]. split; [exact L|]. left. reflexivity.
Qed.
Lemma grown : forall n c0 r0, 0 < c0 -> 0 < r0 -> exists c', grow n n (c0, r0) c0 r0 = (c', rounded (c' * r0) c0) /\ c0 <= c' /\ n <= c' * rounded (c' * r0) c0 /\ (c' = c0 \/ (c0 < c' /\ (c' - 1) * rounded ((c' - 1) * r0) c0 < n)).
Proof. intros n c0 r0 H1 H2. pose proof (grow_spec n n c0 r0 c0 H1 H2 ltac:(lia) ltac:(lia)) as G. rewrite rounded_exact in G by exact H1. exact G. Qed.
