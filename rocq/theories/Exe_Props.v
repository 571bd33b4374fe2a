(** Executables: results directories, styles, verbosities and exceptions (C120). *)
From Coq Require Import String List Arith Bool Lia.
From Coq Require Ascii.
From Verif Require Import Base BaseLemmas Exe_Model Exe_Spec Exe_Proofs.
Import ListNotations.
Local Open Scope nat_scope.

Definition home : path := ["home"%string].
Definition occupied : filesystem := [(["home"; "results"; "2026-01-01_000"]%string, Directory); (["home"; "results"; "2026-01-01_001"]%string, File); (["home"; "results"]%string, Directory); (home, Directory)].

(** A new results directory did not exist before, exists afterwards, nothing is removed and nothing but the directory and its ancestors is created *)
Theorem C120_fresh fs cwd today experiment p fs' : default_results_dir fs cwd today experiment false = Some (p, fs') ->
  kind_of fs p = None /\ kind_of fs' p = Some Directory /\ keeps fs fs' /\ (forall q, kind_of fs' q <> kind_of fs q -> q = p \/ length q < length p).
Proof.
  intros H. destruct (call_spec _ _ _ _ _ _ H) as [i [E [H1 [H2 [H3 [_ H5]]]]]]. split; [exact H1|]. split; [exact H2|]. split; [exact H3|].
  intros q Hq. destruct (H5 q Hq) as [X|X]; [left; exact X|right]. rewrite E, app_length. cbn [length]. lia.
Qed.
(** Its name is the date and the least index not in use, in at least three digits *)
Theorem C120_index fs cwd today experiment p fs' : default_results_dir fs cwd today experiment false = Some (p, fs') ->
  exists i, p = base_directory cwd experiment ++ [dated today i] /\ forall j, j < i -> exists_at fs (base_directory cwd experiment ++ [dated today j]) = true.
Proof. intros H. destruct (call_spec _ _ _ _ _ _ H) as [i [E [_ [_ [_ [H4 _]]]]]]. exists i. split; [exact E|exact H4]. Qed.
(** However many directories there are, the search ends: a call fails only if a file is in the way of the base directory *)
Theorem C120_found fs cwd today experiment overwrite :
  (exists p fs', default_results_dir fs cwd today experiment overwrite = Some (p, fs')) <-> unobstructed fs (base_directory cwd experiment).
Proof. apply call_ok. Qed.
Example C120_fresh_met : exists fs', default_results_dir occupied home "2026-01-01" None false = Some (["home"; "results"; "2026-01-01_002"]%string, fs').
Proof. eexists. reflexivity. Qed.
Example C120_found_met : default_results_dir [(["home"; "results"]%string, File)] home "2026-01-01" (Some "x"%string) false = None.
Proof. reflexivity. Qed.
Print Assumptions C120_fresh.
Print Assumptions C120_index.
Print Assumptions C120_found.

(** Whatever else is created in between, no two calls return the same directory *)
Theorem C120_distinct fs events l fs' : collect fs events = (l, fs') -> NoDup l /\ (forall p, In p l -> kind_of fs p = None /\ kind_of fs' p = Some Directory) /\ keeps fs fs'.
Proof. intros H. destruct (collect_spec _ _ _ _ H) as [H1 [H2 H3]]. split; [exact H2|]. split; [exact H3|exact H1]. Qed.
Example C120_distinct_met : fst (collect occupied [Call home "2026-01-01" None; Create ["home"; "results"; "2026-01-01_003"]%string File; Call home "2026-01-01" None; Call home "2026-01-01" (Some "x"%string)])
  = [["home"; "results"; "2026-01-01_002"]; ["home"; "results"; "2026-01-01_004"]; ["home"; "results"; "x"; "2026-01-01_000"]]%string.
Proof. reflexivity. Qed.
Print Assumptions C120_distinct.
(** Neither do processes that call at the same time, whatever their schedule, *)
Theorem C120_concurrent base today fs n turns fs' l : schedule base today fs (repeat (Searching 0) n) turns = (fs', l) ->
  NoDup (created l) /\ (forall i, In i (created l) -> kind_of fs (base ++ [dated today i]) = None /\ kind_of fs' (base ++ [dated today i]) = Some Directory) /\ keeps fs fs'.
Proof.
  assert (C0 : created (repeat (Searching 0) n) = []) by (induction n as [|n IH]; [reflexivity|exact IH]).
  intros H. destruct (schedule_spec _ _ _ _ _ _ _ H) as [H1 [H2 [H3 H4]]]; [rewrite C0; constructor|rewrite C0; intros i []|]. split; [exact H2|]. split; [|exact H1].
  intros i Hi. split; [|apply H3; exact Hi]. destruct (H4 i Hi) as [X|X]; [rewrite C0 in X; destruct X|exact X].
Qed.
Example C120_concurrent_met : snd (schedule (home ++ ["results"%string]) "2026-01-01" occupied (repeat (Searching 0) 2) [0; 0; 0; 1; 0; 1; 1; 1; 1]) = [Done 2; Done 3].
Proof. reflexivity. Qed.
Print Assumptions C120_concurrent.
(** but such a call may fail although there are free names *)
Theorem C120_concurrent_refuted base today : exists turns, snd (schedule base today [] (repeat (Searching 0) 2) turns) = [Done 0; Failed].
Proof.
  exists [0; 1; 0; 1]. cbn [schedule repeat nth_error turn]. set (p := base ++ [dated today 0]). assert (E0 : exists_at [] p = false) by reflexivity.
  assert (E1 : exists_at [(p, Directory)] p = true) by (unfold exists_at; rewrite kind_cons; destruct (path_eqb_spec p p); [reflexivity|contradiction]).
  rewrite E0. cbn [schedule nth_error replace_nth turn]. fold p. rewrite E0. cbn [schedule nth_error replace_nth turn]. unfold mkdir. fold p. rewrite E0.
  cbn [schedule nth_error replace_nth turn]. unfold mkdir. fold p. unfold path in *. rewrite E1. reflexivity.
Qed.
Print Assumptions C120_concurrent_refuted.

(** Directories of a day sort by their index, up to a thousand of them *)
Lemma compare_refl c : Ascii.compare c c = Eq.
Proof. unfold Ascii.compare. apply BinNat.N.compare_refl. Qed.
Lemma compare_prefix : forall a b c, String.compare (a ++ b)%string (a ++ c)%string = String.compare b c.
Proof. induction a as [|x a IH]; intros b c; [reflexivity|]. cbn [append String.compare]. rewrite compare_refl. apply IH. Qed.
Definition less (a b : string) : bool := match String.compare a b with Lt => true | _ => false end.
Fixpoint ascending (l : list string) : bool := match l with [] => true | x :: r => forallb (less x) r && ascending r end.
Lemma ascending_nth : forall l i j, ascending l = true -> i < j -> j < length l -> less (nth i l ""%string) (nth j l ""%string) = true.
Proof.
  induction l as [|x l IH]; intros i j H Hi Hj; [cbn in Hj; lia|]. cbn [ascending] in H. apply andb_true_iff in H. destruct H as [H1 H2]. destruct j as [|j]; [lia|]. cbn [length] in Hj. destruct i as [|i]; cbn [nth].
  - rewrite forallb_forall in H1. apply H1, nth_In. lia.
  - apply IH; [exact H2|lia|lia].
Qed.
Definition names : list string := map three_digits (seq 0 1000).
Lemma ascending_names : ascending names = true.
Proof. vm_compute. reflexivity. Qed.
Lemma names_nth i : i < 1000 -> nth i names ""%string = three_digits i.
Proof.
  intros H. unfold names. rewrite (nth_indep _ _ (three_digits 0)) by (rewrite map_length, seq_length; exact H). rewrite map_nth, seq_nth by exact H. reflexivity.
Qed.
Theorem C120_sorted today i j : i < j -> j < 1000 -> String.compare (dated today i) (dated today j) = Lt.
Proof.
  intros H1 H2. unfold dated. rewrite !compare_prefix. assert (L : length names = 1000) by (unfold names; rewrite map_length, seq_length; reflexivity).
  pose proof (ascending_nth names i j ascending_names H1) as K. rewrite L in K. specialize (K H2). rewrite !names_nth in K by lia. unfold less in K.
  destruct (String.compare (three_digits i) (three_digits j)); [discriminate|reflexivity|discriminate].
Qed.
Theorem C120_sorted_refuted today : String.compare (dated today 999) (dated today 1000) = Gt.
Proof. unfold dated. rewrite !compare_prefix. reflexivity. Qed.
Example C120_sorted_met : dated "2026-01-01" 7 = "2026-01-01_007"%string /\ dated "2026-01-01" 42 = "2026-01-01_042"%string /\ dated "2026-01-01" 1000 = "2026-01-01_1000"%string.
Proof. repeat split; reflexivity. Qed.
Print Assumptions C120_sorted.
Print Assumptions C120_sorted_refuted.

(** With the overwrite flag the base directory itself is returned and, contrary to the documentation, nothing is erased; calling again changes nothing *)
Theorem C120_overwrite fs cwd today experiment p fs' : default_results_dir fs cwd today experiment true = Some (p, fs') ->
  p = base_directory cwd experiment /\ kind_of fs' p = Some Directory /\ keeps fs fs' /\ forall today', default_results_dir fs' cwd today' experiment true = Some (p, fs').
Proof.
  unfold default_results_dir. cbv zeta. set (base := base_directory cwd experiment). destruct (makedirs fs base) as [fs1|] eqn:E; [|discriminate]. intros H. injection H as <- <-.
  destruct (makedirs_spec _ _ _ E) as [K1 [_ K3]]. split; [reflexivity|]. split; [apply K3; apply base_nonempty|]. split; [exact K1|]. intros today'.
  assert (M : makedirs fs1 base = Some fs1); [|rewrite M; reflexivity]. destruct (make_many base _ _ _ E) as [_ [_ A]]. unfold makedirs. change (fold_left (make_one base) (seq 1 (length base)) (Some fs1) = Some fs1). revert A.
  generalize (seq 1 (length base)) as l. induction l as [|k l IH]; intros A; [reflexivity|]. cbn [fold_left make_one]. cbv zeta. rewrite (A k) by (left; reflexivity). apply IH. intros k' Hk. apply A. right. exact Hk.
Qed.
Example C120_overwrite_met : default_results_dir occupied home "2026-01-01" None true = Some (["home"; "results"]%string, occupied).
Proof. reflexivity. Qed.
Print Assumptions C120_overwrite.
(** Every directory returned is accepted as a results directory, and only directories are *)
Theorem C120_accepted fs cwd today experiment overwrite p fs' : default_results_dir fs cwd today experiment overwrite = Some (p, fs') -> set_results_dir fs' (Some p) = Ok (Some p).
Proof.
  intros H. assert (K : kind_of fs' p = Some Directory) by (destruct overwrite; [exact (proj1 (proj2 (C120_overwrite _ _ _ _ _ _ H)))|exact (proj1 (proj2 (C120_fresh _ _ _ _ _ _ H)))]).
  unfold set_results_dir, exists_at, is_dir. rewrite K. reflexivity.
Qed.
Theorem C120_directories_only fs p : (set_results_dir fs (Some p) = Ok (Some p) <-> kind_of fs p = Some Directory) /\ (kind_of fs p <> Some Directory -> set_results_dir fs (Some p) = Raise ValueError).
Proof. unfold set_results_dir, exists_at, is_dir. destruct (kind_of fs p) as [[|]|]; (split; [split; intros X; try reflexivity; discriminate|intros X; try reflexivity; contradiction]). Qed.
Example C120_accepted_met : set_results_dir occupied (Some ["home"; "results"; "2026-01-01_001"]%string) = Raise ValueError /\ set_results_dir occupied (Some home) = Ok (Some home).
Proof. split; reflexivity. Qed.
Print Assumptions C120_accepted.
Print Assumptions C120_directories_only.

(** The style of an executable is the last available one set, but plots are drawn in the default style whatever is set *)
Theorem C120_style available s v : (In v available -> exists s', set_style available s v = Ok s' /\ style s' = v) /\ (~ In v available -> set_style available s v = Raise ValueError).
Proof.
  unfold set_style. destruct (existsb (String.eqb v) available) eqn:E.
  - split; [intros _; eexists; split; reflexivity|]. intros H. exfalso. apply H. apply existsb_exists in E. destruct E as [x [Hx Ex]]. apply String.eqb_eq in Ex. subst x. exact Hx.
  - split; [|reflexivity]. intros H. assert (K : existsb (String.eqb v) available = true) by (apply existsb_exists; exists v; split; [exact H|apply String.eqb_refl]). congruence.
Qed.
(** The style is the last one set that was available, at first the one of the class *)
Theorem C120_style_default available values : style (set_styles available new_styles values) = last (filter (fun v => existsb (String.eqb v) available) values) "dark"%string.
Proof.
  assert (K : forall values s, style (set_styles available s values) = last (filter (fun v => existsb (String.eqb v) available) values) (style s)); [|apply K].
  clear values. induction values as [|v values IH]; intros s; [reflexivity|]. cbn [set_styles filter]. unfold set_style. destruct (existsb (String.eqb v) available); [|apply IH].
  rewrite IH. change (style (mkStyles (s_class s) (Some v))) with v. generalize (filter (fun v => existsb (String.eqb v) available) values). intros l. destruct l as [|y l]; [reflexivity|].
  change (last (v :: y :: l) (style s)) with (last (y :: l) (style s)). clear. revert y. induction l as [|z l IH]; intros y; [reflexivity|]. apply (IH z).
Qed.
Print Assumptions C120_style_default.
Theorem C120_plots available values : context_style (set_styles available new_styles values) = "dark"%string.
Proof.
  assert (K : forall values s, context_style s = "dark"%string -> context_style (set_styles available s values) = "dark"%string); [|apply K; reflexivity].
  clear values. induction values as [|v values IH]; intros s H; [exact H|]. cbn [set_styles]. apply IH. unfold set_style. destruct (existsb (String.eqb v) available); exact H.
Qed.
Theorem C120_plots_refuted : ~ forall available values, context_style (set_styles available new_styles values) = style (set_styles available new_styles values).
Proof. intros H. specialize (H ["light"%string] ["light"%string]). discriminate. Qed.
Example C120_style_met : set_style ["dark"; "light"]%string new_styles "light" = Ok (mkStyles "dark" (Some "light"%string)) /\ set_style ["dark"; "light"]%string new_styles "blue" = Raise ValueError.
Proof. split; reflexivity. Qed.
Print Assumptions C120_style.
Print Assumptions C120_plots.
Print Assumptions C120_plots_refuted.

(** Whatever the constructor accepts as verbosity the setter accepts, with the same result; lower case letters are refused by the constructor only *)
Lemma upper_known n v : verbosity_of n = Ok v -> upper n = n.
Proof.
  unfold verbosity_of. intros H.
  destruct (String.eqb_spec n "ALL") as [->|]; [reflexivity|]. destruct (String.eqb_spec n "INFO") as [->|]; [reflexivity|]. destruct (String.eqb_spec n "WARNING") as [->|]; [reflexivity|].
  destruct (String.eqb_spec n "ERROR") as [->|]; [reflexivity|]. destruct (String.eqb_spec n "NONE") as [->|]; [reflexivity|]. discriminate.
Qed.
Theorem C120_verbosity name v : constructed_verbosity name = Ok v -> set_verbosity name = Ok v.
Proof. unfold constructed_verbosity, set_verbosity. intros H. rewrite (upper_known _ _ H). exact H. Qed.
Theorem C120_verbosity_refuted : set_verbosity "info" = Ok INFO /\ constructed_verbosity "info" = Raise KeyError.
Proof. split; reflexivity. Qed.
Example C120_verbosity_met : constructed_verbosity "ERROR" = Ok ERROR.
Proof. reflexivity. Qed.
(** Names set later are recognised in upper and lower case *)
Theorem C120_verbosity_case name name' : same_name name name' -> set_verbosity name = set_verbosity name'.
Proof.
  intros H. unfold set_verbosity. f_equal. induction H as [|c d s t L H IH]; [reflexivity|]. cbn [upper]. rewrite IH. f_equal. destruct L as [->|[k [Hk L]]]; [reflexivity|].
  do 26 (destruct k as [|k]; [destruct L as [[-> ->]|[-> ->]]; reflexivity|]). lia.
Qed.
Print Assumptions C120_verbosity_case.
Example C120_verbosity_case_met : same_name "Zz" "zZ".
Proof. constructor; [right; exists 25; split; [lia|left; split; reflexivity]|]. constructor; [right; exists 25; split; [lia|right; split; reflexivity]|constructor]. Qed.
Theorem C120_verbosity_order u v : louder u v <-> value u < value v.
Proof.
  split; [intros H; induction H; try (cbn; lia); lia|]. intros H. destruct u, v; cbn [value] in H; try lia; eauto using all_info, info_warning, warning_error, error_none, louder_trans.
Qed.
Print Assumptions C120_verbosity_order.

Print Assumptions C120_verbosity.
Print Assumptions C120_verbosity_refuted.

(** An exception is raised again in debug mode only; otherwise it is ignored exactly if nothing shall be printed and it is not forced, and execution ends exactly if the user is asked and declines *)
Theorem C120_exceptions debug v m force confirm answer :
  (handle debug v m force confirm answer = Reraised <-> debug = true) /\
  (handle debug v m force confirm answer = Ignored <-> debug = false /\ force = false /\ (v = NONE \/ m = SILENT)) /\
  (handle debug v m force confirm answer = Exited <-> debug = false /\ confirm = true /\ answer = false /\ (force = true \/ v <> NONE /\ m <> SILENT)).
Proof.
  destruct debug, force, confirm, answer, v, m; cbn; repeat split; intros;
    repeat match goal with K : _ /\ _ |- _ => destruct K | K : _ \/ _ |- _ => destruct K end; try discriminate; try contradiction; try reflexivity; try (left; reflexivity); try (right; reflexivity); try congruence;
    try (right; split; discriminate).
Qed.
Example C120_exceptions_met : handle false INFO LINEAR false true false = Exited /\ handle false NONE LINEAR false true false = Ignored /\ handle false NONE SILENT true false false = Printed.
Proof. repeat split; reflexivity. Qed.
Print Assumptions C120_exceptions.
