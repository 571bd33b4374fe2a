(** C59: recorded drops are replayed. *)
From Coq Require Import List Arith Bool ZArith String Lia.
From Verif Require Import Base BaseLemmas Ser_Model Ser_Spec Ser_Proofs SerRead_Proofs Ser_Props Rec_Model Rec_Spec Rec_Proofs.
Import ListNotations.
Open Scope nat_scope.
Open Scope string_scope.

(** * C59 *)
(** Any number of recordings into one file, in any order of campaigns.  Replaying a campaign announces all its drops from all its
    recordings; the drop at position k equals the k-th recorded one, whatever was replayed before, and there is no further one *)
Theorem C59_drops_are_replayed : forall r e fuel l,
  Forall (fun x => valid_campaign (campaign x) /\ Forall (recordable r e fuel) (drops x) /\
                   forall o, state x = Some o -> recordable r e fuel o) l ->
  exists s, record_all fuel r l = Ok s /\
  forall c, valid_campaign c -> drops_of c l <> [] ->
  (forall offset, offset < List.length (drops_of c l) ->
     exists p, replay s c offset = Ok (p, List.length (drops_of c l) - offset) /\ counter p = offset) /\
  (forall offset, List.length (drops_of c l) <= offset -> replay s c offset = Raise ValueError) /\
  forall p, match nth_error (drops_of c l) (counter p) with
            | Some x => exists p' o', replay_drop fuel r e s c p = Ok (p', o') /\ counter p' = S (counter p) /\
                                      equals_snapshot x (loaded (reader p')) o'
            | None => replay_drop fuel r e s c p = Raise IndexError
            end.
Proof.
  intros r e fuel l Hl. destruct (sessions_spec r e fuel l [] _ (library_nil r e fuel) Hl) as [s [E L]]. cbn [List.app] in L.
  exists s. split; [exact E|]. intros c Hc Hne.
  assert (Hin : filter (in_campaign c) l <> []) by (intros Hn; apply Hne; unfold drops_of; rewrite Hn; reflexivity).
  split; [|split].
  - intros k Hk. rewrite (replay_spec r e fuel l s c k L Hc Hin), (proj2 (Nat.leb_gt _ _) Hk). eexists. split; reflexivity.
  - intros k Hk. rewrite (replay_spec r e fuel l s c k L Hc Hin), (proj2 (Nat.leb_le _ _) Hk). reflexivity.
  - intros [k rs]. cbn [counter]. pose proof (replay_drop_spec r e fuel l s c k rs L Hc) as H.
    destruct (nth_error (drops_of c l) k) as [x|]; [|apply H; exact Hne].
    destruct H as [rs' [o' [H1 H2]]]. exists (mkPlayer (S k) rs'), o'. split; [exact H1|]. split; [reflexivity|exact H2].
Qed.
Print Assumptions C59_drops_are_replayed.

(** Replaying all drops of a campaign one after the other *)
Fixpoint replay_run (n fuel : nat) (r : registry) (e : string) (s : store) (c : option string) (p : player) : result (list (heap * obj)) :=
  match n with
  | O => Ok []
  | S n => do '(p', o) <- replay_drop fuel r e s c p; do l <- replay_run n fuel r e s c p'; Ok ((loaded (reader p'), o) :: l)
  end.
Theorem C59_whole_campaigns_are_replayed : forall r e fuel l s c offset,
  Forall (fun x => valid_campaign (campaign x) /\ Forall (recordable r e fuel) (drops x) /\
                   forall o, state x = Some o -> recordable r e fuel o) l ->
  record_all fuel r l = Ok s -> valid_campaign c -> offset < List.length (drops_of c l) ->
  exists p n out, replay s c offset = Ok (p, n) /\ replay_run n fuel r e s c p = Ok out /\
                  Forall2 (fun x y => equals_snapshot x (fst y) (snd y)) (skipn offset (drops_of c l)) out.
Proof.
  intros r e fuel l s c k Hl Hs Hc Hk. destruct (C59_drops_are_replayed r e fuel l Hl) as [s' [E H]].
  rewrite E in Hs. injection Hs as <-.
  assert (Hne : drops_of c l <> []) by (intros Hn; rewrite Hn in Hk; cbn in Hk; lia).
  destruct (H c Hc Hne) as [H1 [_ H3]]. clear H. destruct (H1 k Hk) as [p [Ep Ec]]. set (D := drops_of c l) in *. clearbody D.
  assert (Hrun : forall n p, counter p + n = List.length D -> exists out, replay_run n fuel r e s' c p = Ok out /\
                   Forall2 (fun x y => equals_snapshot x (fst y) (snd y)) (skipn (counter p) D) out).
  { intros n. induction n as [|n IH]; intros q Hq.
    - exists []. split; [reflexivity|]. rewrite skipn_all2 by lia. constructor.
    - specialize (H3 q). destruct (nth_error D (counter q)) as [x|] eqn:Ex; [|apply nth_error_None in Ex; lia].
      destruct H3 as [q' [o' [E1 [E2 E3]]]]. destruct (IH q') as [out [E4 E5]]; [lia|].
      exists ((loaded (reader q'), o') :: out). cbn [replay_run]. rewrite E1. cbn [bind]. rewrite E4. cbn [bind]. split; [reflexivity|].
      rewrite E2 in E5. assert (Es : skipn (counter q) D = x :: skipn (S (counter q)) D).
      { clear -Ex. revert Ex. generalize (counter q). intros m. revert D. induction m as [|m IH]; intros D Ex.
        - destruct D; [discriminate|]. injection Ex as ->. reflexivity.
        - destruct D; [discriminate|]. cbn [skipn]. apply IH. exact Ex. }
      rewrite Es. constructor; [exact E3|exact E5]. }
  destruct (Hrun (List.length D - k) p) as [out [E1 E2]]; [lia|]. rewrite Ec in E2.
  exists p, (List.length D - k), out. split; [exact Ep|]. split; assumption.
Qed.
Print Assumptions C59_whole_campaigns_are_replayed.

(** A scenario restored from a campaign has the state in which that campaign was first recorded *)
Theorem C59_first_state_is_restored : forall r e fuel l s c x,
  Forall (fun x => valid_campaign (campaign x) /\ Forall (recordable r e fuel) (drops x) /\
                   forall o, state x = Some o -> recordable r e fuel o) l ->
  record_all fuel r l = Ok s -> valid_campaign c -> first_state c l = Some x ->
  exists H' o', replay_state fuel r e s c = Ok (H', o') /\ equals_snapshot x H' o'.
Proof.
  intros r e fuel l s c x Hl Hs Hc Hx. destruct (sessions_spec r e fuel l [] _ (library_nil r e fuel) Hl) as [s' [E L]]. cbn [List.app] in L.
  unfold record_all in Hs. rewrite E in Hs. injection Hs as <-.
  assert (Hin : filter (in_campaign c) l <> []).
  { clear -Hx. induction l as [|y l IH]; cbn [first_state filter] in *; [discriminate|]. destruct (in_campaign c y); [discriminate|]. apply IH. exact Hx. }
  pose proof (replay_state_spec r e fuel l s' c L Hc Hin) as H. rewrite Hx in H. exact H.
Qed.
Print Assumptions C59_first_state_is_restored.

(** Three recordings: two into the campaign "lab" with another one between them; memory changes between the drops *)
Definition lonely : heap := [node 1 VNone VNone [] 4].
Definition tape : list session :=
  [mkSession (Some "lab") "1.5.0" 12%N (Some (diamond, 2)) [(diamond, 0); (diamond, 1)];
   mkSession None "1.5.0" 13%N None [(lonely, 0)];
   mkSession (Some "lab") "1.5.0" 14%N (Some (diamond, 0)) [(diamond, 2)]].
Lemma lonely_well_formed : well_formed nodes lonely weights (fun _ => 0).
Proof.
  assert (Hnd : NoDup ["value"; "label"; "left"; "right"; "neighbours"; "weights"]).
  { repeat (constructor; [cbn [In]; intros Hc; repeat (destruct Hc as [Hc|Hc]; [discriminate|]); destruct Hc|]). constructor. }
  intros a o Ho. destruct a as [|a]; cbn [nth_error lonely] in Ho; [|destruct a; discriminate].
  injection Ho as <-; exists node_class; split; [reflexivity|]; split; [exact Hnd|]; unfold node_class, node; cbn [fields readers].
  repeat (constructor; [cbn [fst snd]; split; [reflexivity|]; split; [|discriminate]|]); try constructor; try reflexivity; try (intros e; discriminate); try constructor; lia.
Qed.
Example C59_met : Forall (fun x => valid_campaign (campaign x) /\ Forall (recordable nodes "Node" 5) (drops x) /\
                                   forall o, state x = Some o -> recordable nodes "Node" 5 o) tape /\
  drops_of (Some "lab") tape = [(diamond, 0); (diamond, 1); (diamond, 2)] /\ drops_of None tape = [(lonely, 0)] /\
  first_state (Some "lab") tape = Some (diamond, 2) /\
  exists s p, record_all 5 nodes tape = Ok s /\ replay s (Some "lab") 1 = Ok (p, 2) /\
              exists out, replay_run 2 5 nodes "Node" s (Some "lab") p = Ok out /\ List.length out = 2.
Proof.
  assert (Hd : forall b, b < 3 -> recordable nodes "Node" 5 (diamond, b)).
  { intros b Hb. exists weights, height. split; [exact diamond_well_formed|]. cbn [fst snd]. split; [|unfold height; destruct b as [|[|[|b]]]; lia].
    destruct b as [|[|[|b]]]; [| | |lia]; eexists _, node_class; (split; [reflexivity|]; split; reflexivity). }
  assert (Hs : recordable nodes "Node" 5 (lonely, 0)).
  { exists weights, (fun _ => 0). split; [exact lonely_well_formed|]. cbn [fst snd]. split; [|lia]. eexists _, node_class; (split; [reflexivity|]; split; reflexivity). }
  assert (Hlab : valid_campaign (Some "lab")) by (cbn; intros Hx; repeat (destruct Hx as [Hx|Hx]; [discriminate|]); exact Hx).
  split.
  { repeat constructor; cbn [campaign drops state]; try exact Hlab; try (apply Hd; lia); try exact Hs; intros o Ho; try discriminate; injection Ho as <-; apply Hd; lia. }
  split; [reflexivity|]. split; [reflexivity|]. split; [reflexivity|].
  eexists _, _. split; [vm_compute; reflexivity|]. split; [vm_compute; reflexivity|]. eexists. split; vm_compute; reflexivity.
Qed.

(** A campaign named like the group of drops shares that group with recordings without a campaign: it announces drops that do not exist *)
Theorem C59_reserved_campaign_refuted : exists l s, record_all 5 nodes l = Ok s /\
  Forall (fun x => Forall (recordable nodes "Node" 5) (drops x)) l /\ drops_of None l = [] /\
  exists p, replay s None 0 = Ok (p, 2) /\ replay_drop 5 nodes "Node" s None p = Raise IndexError.
Proof.
  exists [mkSession (Some "drops") "1.5.0" 12%N None [(lonely, 0)]]. eexists. split; [vm_compute; reflexivity|]. split.
  { repeat constructor. exists weights, (fun _ => 0). split; [exact lonely_well_formed|]. cbn [fst snd drops]. split; [|lia].
    eexists _, node_class; (split; [reflexivity|]; split; reflexivity). }
  split; [reflexivity|]. eexists. split; vm_compute; reflexivity.
Qed.
Print Assumptions C59_reserved_campaign_refuted.
