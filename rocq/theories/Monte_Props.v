(** Properties of the Monte Carlo engine. *)
From Coq Require Import List Arith Bool Lia Permutation.
From Verif Require Import Base BaseLemmas Monte_Model Monte_Spec Monte_Proofs MonteActor_Proofs MonteSetup_Proofs.
Import ListNotations.

(** ** C08: the queue manager hands out exactly the requested work *)

(** For every grid, sample count, batch size and every interleaving of work
    requests and disable requests: only grid sections are handed out, none more
    often than requested, and none after a request to disable it. *)
Theorem C08_work_is_bounded_and_respects_disabling :
  forall dims N bs ops q ev, 1 <= N ->
  q_run (queue_new dims N bs) ops = (q, ev) ->
  (forall c, In (Emit c) ev -> in_grid dims c) /\
  (forall c, emissions c ev <= N) /\
  (forall c before after, ev = before ++ Disabled c :: after -> ~ In (Emit c) after).
Proof.
  intros dims N bs ops q ev HN H.
  destruct (qinv_run _ _ _ _ _ _ _ (qinv_new dims N bs HN) H) as [Hq _].
  destruct Hq; auto.
Qed.
Print Assumptions C08_work_is_bounded_and_respects_disabling.

(** Once a request returns no work, every section that was never disabled has been
    handed out exactly the requested number of times. *)
Theorem C08_empty_batch_means_all_work_handed_out :
  forall dims N bs ops q ev, 1 <= N ->
  match bs with Some b => 1 <= b | None => Forall (le 1) dims end ->
  q_run (queue_new dims N bs) ops = (q, ev) ->
  snd (next_batch q) = [] ->
  forall c, in_grid dims c -> ~ In (Disabled c) ev -> emissions c ev = N.
Proof.
  intros dims N bs ops q ev HN Hbs H Hnil c Hc Hnd.
  destruct (qinv_run _ _ _ _ _ _ _ (qinv_new dims N bs HN) H) as [Hq Hb]; cbn [app] in Hq.
  destruct (next_batch q) as [q' b] eqn:Hn; cbn in Hnil; subst b.
  destruct (qinv_next _ _ _ _ _ _ Hq Hn) as (_ & _ & H3).
  destruct H3 as [Hact _]; auto.
  - rewrite Hb; unfold queue_new; cbn [q_batch]; destruct dims as [|n t]; [lia|destruct bs as [b|]; [auto|]].
    rewrite length_ndindex. clear -Hbs; induction Hbs; cbn in *; nia.
  - destruct (qi_done _ _ _ _ Hq c Hc) as [E|E]; [rewrite Hact; auto | auto | tauto].
Qed.
Print Assumptions C08_empty_batch_means_all_work_handed_out.

(** The queue runs dry: after (number of sections) x (samples) requests, whatever
    disable requests are interleaved, no work is left. *)
Theorem C08_queue_runs_dry :
  forall dims N bs ops q ev, 1 <= N ->
  match bs with Some b => 1 <= b | None => Forall (le 1) dims end ->
  q_run (queue_new dims N bs) ops = (q, ev) ->
  fold_right Nat.mul 1 dims * N <= length (filter (fun o => match o with Next => true | _ => false end) ops) ->
  snd (next_batch q) = [].
Proof.
  intros dims N bs ops q ev HN Hbs H Hlen.
  unfold next_batch. rewrite (q_run_exhausts dims N bs ops q ev); auto.
  rewrite length_ndindex; exact Hlen.
Qed.
Print Assumptions C08_queue_runs_dry.

(** A 2x2 grid, three samples, batches of three, one section disabled half way. *)
Example C08_example :
  let r := q_run (queue_new [2; 2] 3 (Some 3)) [Next; Disable [1; 0]; Next; Next; Next; Next] in
  map (fun c => emissions c (snd r)) [[0; 0]; [0; 1]; [1; 0]; [1; 1]] = [3; 3; 1; 3] /\
  snd (next_batch (fst r)) = [].
Proof. vm_compute; auto. Qed.

(** ** C10: reusing stage results within a batch is unobservable *)

(** For every investigated object whose stages read only earlier results, every
    grid whose declared impact ranges are truthful and every batch: each sample is
    taken while the grid is configured to the section it is stored under, and every
    stage result it is evaluated from is up to date for that section. *)
Theorem C10_cached_stages_are_up_to_date :
  forall (V A W : Type) (f : nat -> list nat -> A -> (nat -> V) -> W -> V)
         stages args draws grid st batch st' samples,
  causal f -> (forall s, args s <> []) ->
  (forall d, d < length grid -> truthful f stages d (nth d grid (mkDim 0 0 None None))) ->
  length (a_cfg st) = length grid -> Forall (fun c => length c = length grid) batch ->
  run_batch V A W f stages args draws grid st batch = Ok (st', samples) ->
  forall x, In x samples ->
    In (s_section x) batch /\ s_cfg x = s_section x /\
    consistent f (length stages) args (s_section x) (s_outs x).
Proof.
  intros V A W f stages args draws grid st batch st' samples Hc Ha Ht Hl Hb H x Hx.
  pose proof (run_batch_ok f stages args draws grid Hc Ha Ht st batch st' samples H Hl Hb) as G.
  rewrite Forall_forall in G; auto.
Qed.
Print Assumptions C10_cached_stages_are_up_to_date.

(** Two stages (names 7 and 9): the first reads dimension 0, the second adds
    dimension 1 to the first stage's output.  Dimension 1 starts at stage 9. *)
Definition ex_f (s : nat) (cfg : list nat) (a : nat) (o : nat -> nat) (w : nat) : nat :=
  match s with
  | 0 => 10 * nth 0 cfg 0 + a
  | 1 => o 0 + nth 1 cfg 0
  | _ => 0
  end.
Definition ex_grid := [mkDim 0 3 None None; mkDim 1 2 (Some 9) None].
Definition ex_args (s : nat) := match s with 0 => [1; 2] | _ => [0] end.
Definition ex_run :=
  run_batch nat nat nat ex_f [7; 9] ex_args (fun k => k) ex_grid (mkA (fun _ => 0) 0 [0; 0]) [[1; 0]; [1; 1]; [2; 1]].
Example C10_example_runs :
  match ex_run with
  | Ok (_, ss) => map (fun x => (s_section x, s_outs x 0, s_outs x 1)) ss
  | Raise _ => []
  end = [([1;0], 11, 11); ([1;0], 12, 12); ([1;1], 12, 13); ([2;1], 21, 22); ([2;1], 22, 23)].
Proof. reflexivity. Qed.
Example C10_example_hypotheses :
  causal ex_f /\ (forall d, d < length ex_grid -> truthful ex_f [7; 9] d (nth d ex_grid (mkDim 0 0 None None))).
Proof.
  split.
  - intros [|[|s]] cfg a o1 o2 w H; cbn; try reflexivity. rewrite (H 0); auto.
  - intros [|[|d]] Hd; cbn in Hd; try lia; split; cbn; auto.
    exists 1; split; auto. intros [|s] Hs cfg1 cfg2 a o w Hl Hk; [|lia]. cbn.
    rewrite (Hk 0); auto.
Qed.

(** ** C48: how many samples one run of a section yields *)

(** A section that opens a batch contributes one sample per combination of stage
    arguments. *)
Theorem C48_first_section_yields_all_argument_combinations :
  forall (V A W : Type) (f : nat -> list nat -> A -> (nat -> V) -> W -> V)
         stages args draws grid st c st' samples,
  stages <> [] ->
  run_batch V A W f stages args draws grid st [c] = Ok (st', samples) ->
  length samples = fold_right Nat.mul 1 (map (fun s => length (args s)) (seq 0 (length stages))).
Proof.
  intros V A W f stages args draws grid st c st' samples Hne H.
  unfold run_batch in H; inv_bind H. cbn [run_sections] in H.
  inv_bind H. destruct v0 as [st1 s1]. cbn [bind] in H. injection H as _ <-. rewrite app_nil_r.
  unfold run_section in E0. inv_bind E0.
  assert (Hch : changed_dims c c = []).
  { destruct (changed_dims c c) as [|[x y] l] eqn:Hch; auto.
    assert (X : In (x, y) (changed_dims c c)) by (rewrite Hch; now left).
    apply in_changed in X as (_ & _ & X); congruence. }
  rewrite Hch in E0. unfold impacts in E0. cbn [map fold_left Nat.eqb] in E0. rewrite Nat.leb_refl in E0.
  destruct (execute_stages V A W f args draws (S (length stages - 1) - 0) 0 v0) as [st2 arts] eqn:He.
  injection E0 as _ <-. rewrite map_length. unfold enumerate. rewrite combine_length, seq_length, Nat.min_id.
  rewrite (length_execute_stages f stages args draws _ _ _ _ _ He).
  do 3 f_equal. destruct stages; [congruence|cbn; lia].
Qed.
Print Assumptions C48_first_section_yields_all_argument_combinations.

(** But the sections of one batch need not contribute equally: with two stage
    arguments the second section of the batch above yields one sample only. *)
Theorem C48_equal_contribution_refuted :
  exists (f : nat -> list nat -> nat -> (nat -> nat) -> nat -> nat) stages args draws grid st c1 c2 st' samples,
    causal f /\ (forall s, args s <> []) /\
    (forall d, d < length grid -> truthful f stages d (nth d grid (mkDim 0 0 None None))) /\
    run_batch nat nat nat f stages args draws grid st [c1; c2] = Ok (st', samples) /\ c1 <> c2 /\
    length (filter (fun x => coord_eqb (s_section x) c1) samples) <>
    length (filter (fun x => coord_eqb (s_section x) c2) samples).
Proof.
  destruct (run_batch nat nat nat ex_f [7; 9] ex_args (fun k => k) ex_grid (mkA (fun _ => 0) 0 [0; 0]) [[1; 0]; [1; 1]])
    as [[st' ss]|] eqn:E; [|vm_compute in E; discriminate].
  exists ex_f, [7; 9], ex_args, (fun k => k), ex_grid, (mkA (fun _ => 0) 0 [0; 0]), [1; 0], [1; 1], st', ss.
  destruct C10_example_hypotheses as [H1 H2].
  split; [auto|]. split; [intros [|s]; discriminate|]. split; [auto|]. split; [auto|]. split; [discriminate|].
  vm_compute in E. injection E as <- <-. vm_compute. discriminate.
Qed.
Print Assumptions C48_equal_contribution_refuted.

(** ** C11: results are filed under the section they were simulated for *)

(** If the dimensions were added in the order of the stages they first affect,
    every dimension is configured to the index under which the queue manager and
    the collector file the sample. *)
Theorem C11_sorted_dimensions_are_attributed_correctly :
  forall stages dims c j d,
  key_sorted stages dims -> NoDup (map d_id dims) ->
  in_grid (queue_dims dims) c -> nth_error dims j = Some d ->
  configured_point (actor_grid stages dims) c (d_id d) = nth_error c j.
Proof.
  intros stages dims c j d Hs Hnd Hc Hj. unfold actor_grid.
  rewrite sort_dims_sorted by auto. apply configured_point_nth; auto.
  unfold in_grid, queue_dims in Hc. rewrite (Forall2_len _ _ _ Hc), map_length; auto.
Qed.
Print Assumptions C11_sorted_dimensions_are_attributed_correctly.

(** In general the index [j] of a section configures the [j]-th dimension of the
    sorted list. *)
Theorem C11_sections_index_the_sorted_dimensions :
  forall stages dims c j d,
  NoDup (map d_id dims) -> length c = length dims ->
  nth_error (actor_grid stages dims) j = Some d ->
  configured_point (actor_grid stages dims) c (d_id d) = nth_error c j.
Proof.
  intros stages dims c j d Hnd Hc Hj. apply configured_point_nth; auto.
  - unfold actor_grid; eapply Permutation_NoDup; [|exact Hnd].
    apply Permutation_map, Permutation_sym, sort_dims_perm.
  - unfold actor_grid; rewrite (Permutation_length (sort_dims_perm stages dims)); auto.
Qed.
Print Assumptions C11_sections_index_the_sorted_dimensions.

Example C11_example :
  key_sorted [7; 9] [mkDim 0 3 None None; mkDim 1 2 (Some 9) None] /\
  configured_point (actor_grid [7; 9] [mkDim 0 3 None None; mkDim 1 2 (Some 9) None]) [2; 1] 1 = Some 1.
Proof. split; [cbn; repeat constructor|reflexivity]. Qed.

(** Two dimensions added in the opposite order are swapped silently ... *)
Theorem C11_attribution_refuted :
  exists stages dims c j d,
    NoDup (map d_id dims) /\ in_grid (queue_dims dims) c /\ nth_error dims j = Some d /\
    (exists i, configured_point (actor_grid stages dims) c (d_id d) = Some i) /\
    configured_point (actor_grid stages dims) c (d_id d) <> nth_error c j.
Proof.
  exists [7; 9], [mkDim 1 2 (Some 9) None; mkDim 0 2 None None], [0; 1], 0, (mkDim 1 2 (Some 9) None).
  split; [repeat constructor; cbn; intuition lia|].
  split; [repeat constructor|]. split; [auto|]. split; [exists 1; auto|]. vm_compute; discriminate.
Qed.
Print Assumptions C11_attribution_refuted.

(** ... and if their sizes differ, valid sections of the queue cannot be configured
    by the actor at all. *)
Theorem C11_valid_section_rejected_refuted :
  exists stages dims c (st : astate nat),
    NoDup (map d_id dims) /\ in_grid (queue_dims dims) c /\ length (a_cfg st) = length dims /\
    configure_all nat (actor_grid stages dims) (enumerate c) st = Raise ValueError.
Proof.
  exists [7; 9], [mkDim 1 2 (Some 9) None; mkDim 0 3 None None], [1; 2], (mkA (fun _ => 0) 0 [0; 0]).
  split; [repeat constructor; cbn; intuition lia|].
  split; [repeat constructor|]. split; auto.
Qed.
Print Assumptions C11_valid_section_rejected_refuted.

(** ** C47: progress reports *)

(** One-dimensional grids: after every history of work and disable requests the
    reported fraction is the credited share of the total work, and it stays below
    one exactly as long as a further request would return work. *)
Theorem C47_progress_of_one_dimensional_grids :
  forall n N bs ops q ev, 1 <= n -> 1 <= N -> match bs with Some b => 1 <= b | None => True end ->
  q_run (queue_new [n] N bs) ops = (q, ev) ->
  exists num den, query_progress [n] q = Ok (num, den) /\ 0 < den /\
    num * (n * N) = list_sum (map (fun i => credit N ev [i]) (seq 0 n)) * den /\
    (num < den <-> snd (next_batch q) <> []).
Proof.
  intros n N bs ops q ev Hn HN Hbs H.
  destruct (progress_1d n N bs ops q ev Hn HN H) as (num & den & H1 & H2 & H3 & H4).
  exists num, den; split; auto; split; auto; split.
  - rewrite H3; f_equal. unfold ndindex. rewrite flat_map_concat_map.
    change (map (fun i => map (cons i) [[]]) (seq 0 n)) with (map (fun i => [[i]]) (seq 0 n)).
    generalize (seq 0 n); intros l; induction l as [|x l IH]; cbn; auto.
  - rewrite H4. destruct (qinv_run _ _ _ _ _ _ _ (qinv_new [n] N bs HN) H) as [Hq Hb]; cbn [app] in Hq.
    destruct (next_batch q) as [q' b] eqn:E; cbn [snd].
    destruct (qinv_next _ _ _ _ _ _ Hq E) as (_ & _ & H5).
    assert (Hb1 : 1 <= q_batch q).
    { rewrite Hb; unfold queue_new; cbn [q_batch]; destruct bs; auto. rewrite length_ndindex; cbn; lia. }
    split.
    + intros [c Hc] ->. destruct (H5 Hb1 eq_refl) as [Ha _]; rewrite Ha in Hc; destruct Hc.
    + intros Hne. destruct (q_active q) as [|c l] eqn:Ha; [|exists c; now left].
      unfold next_batch in E; rewrite Ha in E; congruence.
Qed.
Print Assumptions C47_progress_of_one_dimensional_grids.

Example C47_example :
  let r := q_run (queue_new [3] 4 (Some 2)) [Next; Disable [2]; Next] in
  query_progress [3] (fst r) = Ok (8, 12) /\ map (fun i => credit 4 (snd r) [i]) [0;1;2] = [2; 2; 4].
Proof. vm_compute; auto. Qed.

(** Two-dimensional grids: the report reaches one while work is left (which ends the
    simulation loop), or raises. *)
Theorem C47_two_dimensional_progress_refuted :
  exists dims N ops q ev num den,
    length dims = 2 /\ q_run (queue_new dims N None) ops = (q, ev) /\
    query_progress dims q = Ok (num, den) /\ den <= num /\
    snd (next_batch q) <> [] /\ forall c, in_grid dims c -> 4 * emissions c ev <= N.
Proof.
  destruct (q_run (queue_new [2; 2] 4 None) [Next]) as [q ev] eqn:E.
  exists [2; 2], 4, [Next], q, ev, 16, 16.
  split; [auto|]. split; [auto|].
  vm_compute in E. injection E as <- <-.
  split; [vm_compute; reflexivity|]. split; [auto|]. split; [vm_compute; discriminate|].
  intros c Hc. apply ndindex_spec in Hc. vm_compute in Hc.
  repeat destruct Hc as [<-|Hc]; try (vm_compute; lia); destruct Hc.
Qed.
Print Assumptions C47_two_dimensional_progress_refuted.

Theorem C47_progress_query_raises_refuted :
  exists dims N, Forall (le 1) dims /\ 1 <= N /\ query_progress dims (queue_new dims N None) = Raise IndexError.
Proof. exists [2; 3], 1; repeat split; auto; repeat constructor. Qed.
Print Assumptions C47_progress_query_raises_refuted.
