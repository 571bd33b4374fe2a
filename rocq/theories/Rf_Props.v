(** Properties of radio frequency chains: C30, C31. *)
From Coq Require Import List Arith Bool Lia.
From Verif Require Import Base BaseLemmas Rf_Model Rf_Spec Rf_Proofs RfProp_Proofs.
Import ListNotations.

(** * C30: connecting blocks *)

(** In every chain a history of calls can build, a [connect] call that joins existing,
    equally many output and input ports succeeds: it adds the requested wires, keeps the
    wires between all other pairs of blocks and keeps the blocks.  Every other call raises
    and leaves the chain exactly as it was. *)
Theorem C30_connect_is_atomic : forall (A : Type) (ops : list (op A)) (a b : port),
  (acceptable (build ops) a b ->
     exists c', connect (build ops) a b = (c', None) /\ ch_blocks c' = ch_blocks (build ops) /\
       forall w, wired c' w <->
         In w (wires_of a b) \/
         ((w_o w, w_i w) <> (p_ref (out_side a b), p_ref (in_side a b)) /\ wired (build ops) w)) /\
  (~ acceptable (build ops) a b -> exists e, connect (build ops) a b = (build ops, Some e)).
Proof.
  intros A ops a b. split; intros H; [|now apply connect_rejected].
  pose proof (wired_connect A ops a b) as Hw. destruct (connect_accepted A (build ops) a b H) as (x & y & E & _).
  rewrite E in *. eexists. split; [reflexivity|]. split; [reflexivity|]. intros w. now apply Hw.
Qed.
Print Assumptions C30_connect_is_atomic.

(** If no pair of blocks is connected by two calls, the chain ends up with exactly the
    wires its accepted calls asked for. *)
Theorem C30_all_requested_wires_are_recorded : forall (A : Type) (ops : list (op A)),
  NoDup (joined chain_new ops) -> forall w, wired (build ops) w <-> In w (requested chain_new ops).
Proof. exact wired_requested. Qed.
Print Assumptions C30_all_requested_wires_are_recorded.

(** Under the same condition, the chain's antenna-side inputs are exactly the blocks that
    are no digital inputs and have a port left, and so are the antenna-side outputs. *)
Theorem C30_open_blocks_face_the_antennas : forall (A : Type) (ops : list (op A)),
  NoDup (joined chain_new ops) ->
  (forall r, In r (ch_rfin (build ops)) <->
     r < length (ch_blocks (build ops)) /\ b_dspin (block_at (build ops) r) = false /\
     connected_in (build ops) r < b_in (block_at (build ops) r)) /\
  (forall r, In r (ch_rfout (build ops)) <->
     r < length (ch_blocks (build ops)) /\ b_dspout (block_at (build ops) r) = false /\
     connected_out (build ops) r < b_out (block_at (build ops) r)).
Proof.
  intros A ops H. pose proof (lists_inv_build A ops H) as L. unfold lists_inv in L.
  destruct L as (_ & _ & _ & _ & _ & _ & _ & L1 & L2). auto.
Qed.
Print Assumptions C30_open_blocks_face_the_antennas.

(** A source with two outputs, an adder with two inputs, an amplifier. *)
Definition dac : block nat := mkBlock 2 2 true false (fun s => s).
Definition adder : block nat := mkBlock 2 1 false false
  (fun s => [map (fun p => fst p + snd p) (combine (nth 0 s []) (nth 1 s []))]).
Definition amp : block nat := mkBlock 1 1 false false (map (map (fun x => 2 * x))).
Definition ex_ops : list (op nat) :=
  [AddBlock dac; AddBlock adder; AddBlock amp;
   Connect (mkPort 0 [0] false) (mkPort 2 [0] true);
   Connect (mkPort 1 [1] true) (mkPort 0 [1] false);
   Connect (mkPort 2 [0] false) (mkPort 1 [0] true);
   Connect (mkPort 2 [1] false) (mkPort 1 [0] true)].
Example C30_hypotheses_met :
  NoDup (joined chain_new ex_ops) /\ length (requested chain_new ex_ops) = 3 /\
  acceptable (build (firstn 3 ex_ops)) (mkPort 0 [0] false) (mkPort 2 [0] true) /\
  ~ acceptable (build ex_ops) (mkPort 2 [1] false) (mkPort 1 [0] true) /\
  ch_rfin (build ex_ops) = [] /\ ch_rfout (build ex_ops) = [1].
Proof.
  split; [|split; [reflexivity|split; [|split; [|split; reflexivity]]]].
  - cbn. repeat constructor; cbn; intuition congruence.
  - unfold acceptable; cbn. split; [lia|]. split; [lia|]. split; [discriminate|]. split; [auto|].
    split; intros p [<-|[]]; lia.
  - unfold acceptable; cbn. intros (_ & _ & _ & _ & H & _). specialize (H 1 (or_introl eq_refl)). lia.
Qed.

(** Connecting the same pair of blocks by a second call silently drops the wires of the first. *)
Theorem C30_second_call_keeps_earlier_wires_refuted :
  exists (ops : list (op nat)) (a1 b1 a2 b2 : port) (w : wire),
    let c1 := fst (connect (build ops) a1 b1) in
    snd (connect (build ops) a1 b1) = None /\ In w (wires_of a1 b1) /\ wired c1 w /\
    snd (connect c1 a2 b2) = None /\ ~ In (w_ip w) (p_idx (in_side a2 b2)) /\ ~ wired (fst (connect c1 a2 b2)) w.
Proof.
  exists [AddBlock dac; AddBlock adder], (mkPort 0 [0] false), (mkPort 1 [0] true), (mkPort 0 [1] false), (mkPort 1 [1] true),
    (mkWire 0 0 1 0).
  cbn. split; [reflexivity|]. split; [auto|]. split; [exists [0], [0]; cbn; auto|]. split; [reflexivity|].
  split; [intros [H|[]]; discriminate|].
  intros (ops & ips & H & H'). cbn in H. destruct H as [H|[]]. injection H as <- <-. cbn in H'. destruct H' as [H'|[]]; discriminate.
Qed.
Print Assumptions C30_second_call_keeps_earlier_wires_refuted.

(** An input port that is already fed can be connected again, to another block. *)
Theorem C30_connected_ports_are_rejected_refuted :
  exists (ops : list (op nat)) (a b : port) (w : wire),
    wired (build ops) w /\ w_i w = p_ref (in_side a b) /\ In (w_ip w) (p_idx (in_side a b)) /\
    snd (connect (build ops) a b) = None /\
    exists w', w' <> w /\ (w_i w', w_ip w') = (w_i w, w_ip w) /\
      wired (fst (connect (build ops) a b)) w /\ wired (fst (connect (build ops) a b)) w'.
Proof.
  exists [AddBlock dac; AddBlock amp; AddBlock amp; Connect (mkPort 0 [0] false) (mkPort 2 [0] true)],
    (mkPort 1 [0] false), (mkPort 2 [0] true), (mkWire 0 0 2 0).
  cbn. split; [exists [0], [0]; cbn; auto|]. split; [auto|]. split; [auto|]. split; [reflexivity|].
  exists (mkWire 1 0 2 0). split; [discriminate|]. split; [reflexivity|].
  split; exists [0], [0]; cbn; auto.
Qed.
Print Assumptions C30_connected_ports_are_rejected_refuted.

(** A block without input ports accepts a wire to a port it does not have. *)
Theorem C30_missing_input_ports_are_rejected_refuted :
  exists (ops : list (op nat)) (a b : port), b_in (block_at (build ops) (p_ref (in_side a b))) = 0 /\
    snd (connect (build ops) a b) = None /\ wires_of a b <> [].
Proof.
  exists [AddBlock amp; AddBlock (mkBlock 0 1 false false (fun _ => [[]]))], (mkPort 0 [0] false), (mkPort 1 [7] true).
  cbn. split; [reflexivity|]. split; [reflexivity|]. discriminate.
Qed.
Print Assumptions C30_missing_input_ports_are_rejected_refuted.

(** * C31: propagation *)

(** Transmitting over an acyclic chain whose input ports are fed at most once: there is
    exactly one assignment of outputs to the blocks such that every block's input carries
    the outputs it is wired to and, on the digital inputs, the streams of the signal; the
    transmission returns the outputs of the antenna-side blocks in order; no block is
    evaluated twice. *)
Theorem C31_transmit_evaluates_the_graph : forall (A : Type) (zero : A) (ns : nat) (ops : list (op A)) (ext : nat -> list (list A)),
  let c := build ops in
  NoDup (joined chain_new ops) -> sound c -> shapely c ns ->
  (forall r, In r (ch_dspin c) -> ch_inc c r = [] /\ length (ext r) = b_in (block_at c r) /\ Forall (fun s => length s = ns) (ext r)) ->
  let fed := fun r => if existsb (Nat.eqb r) (ch_dspin c) then Some (ext r) else None in
  exists out, block_equations zero ns c fed out /\
    (forall out', block_equations zero ns c fed out' -> forall r, out' r = out r) /\
    exists fuel0, forall fuel, fuel0 <= fuel -> exists st,
      transmit A zero ns fuel c (flat_map ext (ch_dspin c)) = Ok (flat_map out (ch_rfout c), st) /\ NoDup (g_log st).
Proof.
  intros A zero ns ops ext c Hj Hs Hp Hext fed.
  pose proof (lists_inv_build A ops Hj) as L. fold c in L. unfold lists_inv in L. destruct L as (_ & _ & Ld & _).
  destruct (s_acyclic A c Hs) as [rank Hrank].
  assert (Hfed : forall r s, fed r = Some s -> length s = length (open_of c r) /\ Forall (fun x => length x = ns) s).
  { intros r s. unfold fed. destruct (existsb _ _) eqn:E; [|discriminate]. intros [= <-].
    apply member_In in E. destruct (Hext r E) as (Hi & Hl & Hf). split; [|auto].
    rewrite Hl. unfold open_of. rewrite Hi. cbn [flat_map]. rewrite (filter_ext _ (fun _ => true)) by reflexivity.
    clear. generalize 0. induction (b_in (block_at c r)) as [|n IH]; intros k; [reflexivity|]. cbn. now rewrite <- IH. }
  exists (outp zero ns c fed rank). split; [now apply outp_equations|]. split.
  { intros out' E r. eapply solution_unique; eauto. now apply outp_equations. }
  exists (S (list_max (map rank (ch_rfout c)))). intros fuel Hfuel.
  destruct (collect_spec A zero ns c Hs Hp fed Hfed rank Hrank fuel (ch_rfout c)) with (st := mkG (A := A) [] []) as (st & E & M).
  - intros r Hr. enough (rank r <= list_max (map rank (ch_rfout c))) by lia.
    eapply (proj1 (Forall_forall _ _) (proj1 (list_max_le _ _) (le_n _))). now apply in_map.
  - apply memo_ok_empty.
  - exists st. split; [|apply M]. unfold transmit. rewrite <- E. apply collect_ext. intros r.
    rewrite dsp_origins_spec; [reflexivity|auto|]. intros x Hx. now apply Hext.
Qed.
Print Assumptions C31_transmit_evaluates_the_graph.

(** Reception feeds the open ports of the antenna-side inputs and returns the outputs of
    the digital output blocks. *)
Theorem C31_receive_evaluates_the_graph : forall (A : Type) (zero : A) (ns : nat) (ops : list (op A)) (ext : nat -> list (list A)),
  let c := build ops in
  NoDup (joined chain_new ops) -> sound c -> shapely c ns ->
  (forall r ports, In r (ch_rfin c) -> unwired_ports c r ports ->
      length (ext r) = length ports /\ Forall (fun s => length s = ns) (ext r)) ->
  let fed := fun r => if existsb (Nat.eqb r) (ch_rfin c) then Some (ext r) else None in
  exists out, block_equations zero ns c fed out /\
    (forall out', block_equations zero ns c fed out' -> forall r, out' r = out r) /\
    exists fuel0, forall fuel, fuel0 <= fuel -> exists st,
      receive A zero ns fuel c (flat_map ext (ch_rfin c)) = Ok (flat_map out (ch_dspout c), st) /\ NoDup (g_log st).
Proof.
  intros A zero ns ops ext c Hj Hs Hp Hext fed.
  pose proof (lists_inv_build A ops Hj) as L. fold c in L. unfold lists_inv in L. destruct L as (Ld & _).
  destruct (s_acyclic A c Hs) as [rank Hrank].
  assert (Hfed : forall r s, fed r = Some s -> length s = length (open_of c r) /\ Forall (fun x => length x = ns) s).
  { intros r s. unfold fed. destruct (existsb _ _) eqn:E; [|discriminate]. intros [= <-].
    apply member_In in E. apply Hext; auto. apply open_unwired. }
  exists (outp zero ns c fed rank). split; [now apply outp_equations|]. split.
  { intros out' E r. eapply solution_unique; eauto. now apply outp_equations. }
  exists (S (list_max (map rank (ch_dspout c)))). intros fuel Hfuel.
  destruct (collect_spec A zero ns c Hs Hp fed Hfed rank Hrank fuel (ch_dspout c)) with (st := mkG (A := A) [] []) as (st & E & M).
  - intros r Hr. enough (rank r <= list_max (map rank (ch_dspout c))) by lia.
    eapply (proj1 (Forall_forall _ _) (proj1 (list_max_le _ _) (le_n _))). now apply in_map.
  - apply memo_ok_empty.
  - exists st. split; [|apply M]. unfold receive.
    destruct (rf_origins_spec A c ext (ch_rfin c) Ld Hs) as (f & Ef & Hf).
    { intros r Hr. apply Hext; auto. apply open_unwired. }
    rewrite Ef. cbn [bind]. rewrite <- E. apply collect_ext. intros r. now rewrite Hf.
Qed.
Print Assumptions C31_receive_evaluates_the_graph.

(** The example chain meets the hypotheses: both streams of the source reach the adder,
    one of them amplified. *)
Lemma block_cases {A} (c : chain A) (P : block A -> Prop) : Forall P (ch_blocks c) -> P (no_block A) -> forall r, P (block_at c r).
Proof.
  intros H H0 r. unfold block_at. destruct (nth_in_or_default r (ch_blocks c) (no_block A)) as [Hi|Hd]; [|now rewrite Hd].
  rewrite Forall_forall in H. auto.
Qed.
Example C31_hypotheses_met :
  let c := build ex_ops in
  NoDup (joined chain_new ex_ops) /\ sound c /\ shapely c 2 /\
  (forall r, In r (ch_dspin c) -> ch_inc c r = [] /\ length [[1;2];[3;4]] = b_in (block_at c r) /\ Forall (fun s => length s = 2) [[1;2];[3;4]]) /\
  transmit nat 0 2 5 c [[1;2];[3;4]] = Ok ([[5;8]], mkG [(1, [[5;8]]); (2, [[2;4]]); (0, [[1;2];[3;4]])] [0;2;1]).
Proof.
  cbn zeta. split; [|split; [|split; [|split]]].
  - cbn. repeat constructor; cbn; intuition congruence.
  - constructor.
    + intros r. destruct r as [|[|[|r]]]; cbn; repeat constructor; cbn; intuition congruence.
    + exists (fun r => match r with 1 => 2 | 2 => 1 | _ => 0 end). intros r o ps.
      destruct r as [|[|[|r]]]; cbn; intros H; repeat (destruct H as [H|H]; [injection H as <- <-; lia|]); destruct H.
    + intros r o ops ips. destruct r as [|[|[|r]]]; cbn; intros H;
      repeat (destruct H as [H|H]; [injection H as <- <- <-; (split; [reflexivity|split; intros p [<-|[]]; cbn; lia])|]); destruct H.
  - unfold shapely. intros r. apply (block_cases (build ex_ops) (fun b => forall s, length s = b_in b -> Forall (fun x => length x = 2) s ->
      length (b_prop b s) = b_out b /\ Forall (fun x => length x = 2) (b_prop b s))).
    + repeat constructor; try assumption; cbn in *.
      * destruct s as [|x [|y [|z s]]]; try discriminate. inversion H0 as [|? ? Hx H1]; subst. inversion H1 as [|? ? Hy H2]; subst.
        cbn. rewrite map_length, combine_length, Hx, Hy. reflexivity.
      * now rewrite map_length.
      * rewrite Forall_forall in *. intros x Hx. apply in_map_iff in Hx as (y & <- & Hy). rewrite map_length. auto.
    + cbn. auto.
  - cbn. intros r [<-|[]]. cbn. auto.
  - reflexivity.
Qed.

(** Two feeds of one input port, which [connect] accepts, make a later reception raise. *)
Theorem C31_double_feed_is_harmless_refuted :
  exists ops : list (op nat), snd (connect (build ops) (mkPort 0 [0] false) (mkPort 2 [0] true)) = None /\
    let c := fst (connect (build ops) (mkPort 0 [0] false) (mkPort 2 [0] true)) in
    forall fuel s, receive nat 0 1 fuel c s = Raise ValueError.
Proof.
  exists [AddBlock amp; AddBlock amp; AddBlock (mkBlock 4 1 false false (fun s => s));
          Connect (mkPort 1 [0] false) (mkPort 2 [0] true)].
  split; [reflexivity|]. cbn zeta. intros fuel s. unfold receive. cbn. reflexivity.
Qed.
Print Assumptions C31_double_feed_is_harmless_refuted.
