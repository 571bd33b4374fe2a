(** C12 and C13: serialization of object graphs and of single values. *)
From Coq Require Import List Arith Bool ZArith String Lia.
From Verif Require Import Base BaseLemmas Ser_Model Ser_Spec Ser_Proofs SerRead_Proofs SerHist_Proofs.
Import ListNotations.
Open Scope nat_scope.
Open Scope string_scope.

(** ** A class of nodes with a number, two optional children, a list of neighbours and a weight array *)
Definition node_class : class :=
  mkClass ["Node"; "Serializable"]
    [("value", (KInt, false)); ("label", (KStr, true)); ("left", (KObject "Node", true)); ("right", (KObject "Node", true));
     ("neighbours", (KSeq "Node", false)); ("weights", (KArray, true))].
Definition nodes : registry := [("Node", node_class)].
Definition weights (u : nat) : array := mkArray [2] "float64" [N.of_nat u; 7%N].
Definition node (v : Z) (l r : value) (ns : list nat) (u : nat) : obj :=
  mkObj "Node" [("value", VScalar (SInt v)); ("label", VNone); ("left", l); ("right", r); ("neighbours", VSeq false ns); ("weights", VArray true u (weights u))].
(** Object 0 refers to object 1 twice and to object 2, which refers to object 1 again; objects 0 and 1 share their weights *)
Definition diamond : heap :=
  [node 5 (VObject 1) (VObject 2) [1; 2; 1] 4; node (-3) VNone VNone [] 4; node 8 (VObject 1) VNone [1] 6].
Definition height (a : nat) : nat := match a with 0 => 2 | 2 => 1 | _ => 0 end.

Example diamond_well_formed : well_formed nodes diamond weights height.
Proof.
  assert (Hinst : forall b, b < 3 -> instance_of nodes diamond "Node" b).
  { intros b Hb. destruct b as [|[|[|b]]]; [| | |lia]; eexists _, node_class; (split; [reflexivity|]; split; reflexivity). }
  assert (Hnd : NoDup ["value"; "label"; "left"; "right"; "neighbours"; "weights"]).
  { repeat (constructor; [cbn [In]; intros Hc; repeat (destruct Hc as [Hc|Hc]; [discriminate|]); destruct Hc|]). constructor. }
  intros a o Ho. destruct a as [|[|[|a]]]; cbn [nth_error diamond] in Ho; [| | |destruct a; discriminate].
  all: injection Ho as <-; exists node_class; split; [reflexivity|]; split; [exact Hnd|]; unfold node_class, node; cbn [fields readers].
  all: repeat (constructor; [cbn [fst snd]; split; [reflexivity|]; split; [|discriminate]|]); try constructor.
  all: try (constructor; try reflexivity; try (apply Hinst; lia); try (cbn [height]; lia); try (intros e; discriminate)).
  all: repeat (constructor; [split; [apply Hinst; lia|cbn [height]; lia]|]); try (now constructor); try (split; [|cbn [height]; lia]); try (apply Hinst; lia); intros e; discriminate.
Qed.

(** * C12 *)
(** Saving any acyclic object graph and loading the file yields the same graph up to addresses *)
Theorem C12_graphs_survive : forall r H content rank fuel version timestamp a o,
  well_formed r H content rank -> nth_error H a = Some o -> rank a < fuel ->
  (forall n, In n (map fst (fields o)) -> ~ In n ["arrays"; "version"; "timestamp"]) ->
  exists s H' o', to_hdf fuel H r version timestamp a = Ok s /\ from_hdf fuel r s (tag o) = Ok (H', o') /\ isomorphic H o H' o'.
Proof.
  intros r H content rank fuel v t a o HW Ho Hf Hres. destruct (HW _ _ Ho) as [cl [Hcl _]].
  apply (file_roundtrip r H content rank HW fuel fuel v t a o cl); [lia|exact Hf|exact Ho|exact Hcl|].
  intros n Hn Hr. apply (Hres n Hn). cbn [In]. destruct Hr as [E|[E|E]]; subst n; tauto.
Qed.
Print Assumptions C12_graphs_survive.

(** References lead to the same object after loading exactly if they did before saving *)
Theorem C12_shared_exactly_if_same : forall r H content rank fuel version timestamp a o s H' o',
  well_formed r H content rank -> nth_error H a = Some o -> rank a < fuel ->
  (forall n, In n (map fst (fields o)) -> ~ In n ["arrays"; "version"; "timestamp"]) ->
  to_hdf fuel H r version timestamp a = Ok s -> from_hdf fuel r s (tag o) = Ok (H', o') ->
  forall s1 l1 s2 l2 a1 a2, reach H o s1 l1 = Some a1 -> reach H o s2 l2 = Some a2 ->
  exists a1' a2', reach H' o' s1 l1 = Some a1' /\ reach H' o' s2 l2 = Some a2' /\ (a1 = a2 <-> a1' = a2').
Proof.
  intros r H content rank fuel v t a o s H' o' HW Ho Hf Hres Hs Hl s1 l1 s2 l2 a1 a2 H1 H2.
  destruct (C12_graphs_survive r H content rank fuel v t a o HW Ho Hf Hres) as [s0 [H0 [o0 [E1 [E2 Hiso]]]]].
  rewrite E1 in Hs. injection Hs as <-. rewrite E2 in Hl. injection Hl as <- <-.
  destruct Hiso as [b [c [[Hfun Hinj] [_ [Hroot Hall]]]]].
  destruct (reach_same _ _ _ _ _ _ Hall Hroot _ _ _ H1) as [a1' [R1 I1]].
  destruct (reach_same _ _ _ _ _ _ Hall Hroot _ _ _ H2) as [a2' [R2 I2]].
  exists a1', a2'. split; [exact R1|]. split; [exact R2|]. split.
  - intros ->. exact (Hfun _ _ _ I1 I2).
  - intros ->. exact (Hinj _ _ _ I1 I2).
Qed.
Print Assumptions C12_shared_exactly_if_same.

(** Every object that can be reached has the same class, numbers, strings and arrays after loading *)
Theorem C12_values_survive : forall r H content rank fuel version timestamp a o s H' o',
  well_formed r H content rank -> nth_error H a = Some o -> rank a < fuel ->
  (forall n, In n (map fst (fields o)) -> ~ In n ["arrays"; "version"; "timestamp"]) ->
  to_hdf fuel H r version timestamp a = Ok s -> from_hdf fuel r s (tag o) = Ok (H', o') ->
  (forall n, scalar_of o' n = scalar_of o n /\ array_of o' n = array_of o n) /\
  forall s1 l1 a1, reach H o s1 l1 = Some a1 ->
  exists x a1' x', nth_error H a1 = Some x /\ reach H' o' s1 l1 = Some a1' /\ nth_error H' a1' = Some x' /\
    tag x' = tag x /\ forall n, scalar_of x' n = scalar_of x n /\ array_of x' n = array_of x n.
Proof.
  intros r H content rank fuel v t a o s H' o' HW Ho Hf Hres Hs Hl.
  destruct (C12_graphs_survive r H content rank fuel v t a o HW Ho Hf Hres) as [s0 [H0 [o0 [E1 [E2 Hiso]]]]].
  rewrite E1 in Hs. injection Hs as <-. rewrite E2 in Hl. injection Hl as <- <-.
  destruct Hiso as [b [c [_ [_ [Hroot Hall]]]]]. split.
  - intros n. split; [eapply same_scalar_of; exact Hroot|eapply same_array_of; exact Hroot].
  - intros s1 l1 a1 H1. destruct (reach_same _ _ _ _ _ _ Hall Hroot _ _ _ H1) as [a1' [R1 I1]].
    destruct (Hall _ _ I1) as [x [x' [X1 [X2 X3]]]]. exists x, a1', x'.
    split; [exact X1|]. split; [exact R1|]. split; [exact X2|]. split; [symmetry; apply (proj1 X3)|].
    intros n. split; [eapply same_scalar_of; exact X3|eapply same_array_of; exact X3].
Qed.
Print Assumptions C12_values_survive.

Example C12_met : exists s H' o', to_hdf 3 diamond nodes "1.5.0" 12%N 0 = Ok s /\ from_hdf 3 nodes s "Node" = Ok (H', o') /\
  List.length H' = 2 /\
  reach H' o' (Field "left") [] = reach H' o' (Field "right") [Field "left"] /\
  reach H' o' (Field "left") [] <> reach H' o' (Item "neighbours" 1) [] /\
  reach H' o' (Item "neighbours" 1) [Item "neighbours" 0] = reach H' o' (Field "left") [] /\
  array_of o' "weights" = Some (weights 4) /\
  isomorphic diamond (node 5 (VObject 1) (VObject 2) [1; 2; 1] 4) H' o'.
Proof.
  destruct (C12_graphs_survive nodes diamond weights height 3 "1.5.0" 12%N 0 _ diamond_well_formed eq_refl) as [s [H' [o' [E1 [E2 Hi]]]]].
  { cbn [height]. lia. }
  { cbn [node fields map fst In]. intros n Hn Hc. repeat (destruct Hn as [<-|Hn]; [repeat (destruct Hc as [Hc|Hc]; [discriminate|]); destruct Hc|]). destruct Hn. }
  exists s, H', o'. split; [exact E1|]. split; [exact E2|].
  assert (Es : to_hdf 3 diamond nodes "1.5.0" 12%N 0 = Ok s) by exact E1. vm_compute in Es. injection Es as <-.
  cbn [node tag] in E2. vm_compute in E2. injection E2 as <- <-.
  split; [reflexivity|]. split; [reflexivity|]. split; [discriminate|]. split; [reflexivity|]. split; [reflexivity|exact Hi].
Qed.

(** ** Limits *)
(** Graphs with cycles are saved but can never be loaded: two objects that refer to each other *)
Definition link_class : class := mkClass ["Link"] [("next", (KObject "Link", true))].
Definition links : registry := [("Link", link_class)].
Definition cycle : heap := [mkObj "Link" [("next", VObject 1)]; mkObj "Link" [("next", VObject 0)]].
Definition cycle_file : store :=
  mkStore [(["next"; "next"; "next"], ESoft ["next"]); (["next"; "next"], EGroup); (["next"], EGroup); (["arrays"], EGroup)]
    [(["type"; "next"], SStr "Link"); (["type"; "next"; "next"], SStr "Link"); (["timestamp"], SFloat 12%N); (["version"], SStr "1.5.0")].

Lemma cycle_reads : forall f rs, robjects rs = [] ->
  read_obj f links cycle_file "Link" rs [] "next" = Raise RecursionError /\
  read_obj f links cycle_file "Link" rs ["next"] "next" = Raise RecursionError /\
  read_obj f links cycle_file "Link" rs ["next"; "next"] "next" = Raise RecursionError.
Proof.
  intros f. induction f as [|f IH]; intros rs Hrs; [repeat split; reflexivity|].
  destruct (IH rs Hrs) as [I1 [I2 I3]].
  assert (G : forall q, (q = ["next"] \/ q = ["next"; "next"]) ->
    read_fields (fun e' => read_obj f links cycle_file e') cycle_file q (readers link_class) rs = Raise RecursionError).
  { intros q Hq. cbn [link_class readers read_fields read_field]. destruct Hq as [-> | ->]; [rewrite I2|rewrite I3]; reflexivity. }
  split; [|split].
  - transitivity (do '(rs1, fs) <- read_fields (fun e' => read_obj f links cycle_file e') cycle_file ["next"] (readers link_class) rs;
      Ok (mkR (List.app (loaded rs1) [mkObj "Link" fs]) (next_array rs1) ((["next"], List.length (loaded rs1)) :: robjects rs1) (rarrays rs1), Some (List.length (loaded rs1)))).
    + reflexivity.
    + rewrite G by (left; reflexivity). reflexivity.
  - transitivity (do '(rs1, fs) <- read_fields (fun e' => read_obj f links cycle_file e') cycle_file ["next"; "next"] (readers link_class) rs;
      Ok (mkR (List.app (loaded rs1) [mkObj "Link" fs]) (next_array rs1) ((["next"; "next"], List.length (loaded rs1)) :: robjects rs1) (rarrays rs1), Some (List.length (loaded rs1)))).
    + reflexivity.
    + rewrite G by (right; reflexivity). reflexivity.
  - transitivity (do '(rs1, fs) <- read_fields (fun e' => read_obj f links cycle_file e') cycle_file ["next"] (readers link_class) rs;
      Ok (mkR (List.app (loaded rs1) [mkObj "Link" fs]) (next_array rs1) ((["next"], List.length (loaded rs1)) :: robjects rs1) (rarrays rs1), Some (List.length (loaded rs1)))).
    + cbn [read_obj]. replace (lookup ["next"; "next"; "next"] (entries cycle_file)) with (Some (ESoft ["next"])) by reflexivity.
      rewrite Hrs. reflexivity.
    + rewrite G by (left; reflexivity). reflexivity.
Qed.
Theorem C12_cycles_refuted : exists r H a o s, nth_error H a = Some o /\ (forall n, In n (map fst (fields o)) -> ~ In n ["arrays"; "version"; "timestamp"]) /\
  to_hdf 3 H r "1.5.0" 12%N a = Ok s /\ forall fuel, from_hdf fuel r s (tag o) = Raise RecursionError.
Proof.
  exists links, cycle, 0, (mkObj "Link" [("next", VObject 1)]), cycle_file. split; [reflexivity|]. split.
  - cbn [fields map fst In]. intros n [<-|[]] Hc. repeat (destruct Hc as [Hc|Hc]; [discriminate|]). destruct Hc.
  - split; [vm_compute; reflexivity|]. intros fuel. cbn [tag]. unfold from_hdf. replace (find_class "Link" links) with (Some link_class) by reflexivity.
    cbn [link_class readers read_fields read_field]. destruct (cycle_reads fuel empty_reader eq_refl) as [-> _]. reflexivity.
Qed.
Print Assumptions C12_cycles_refuted.

(** A class that reads its fields in another order than it writes them duplicates shared objects *)
Definition leaf_class : class := mkClass ["Leaf"] [("value", (KInt, false))].
Definition pair_class : class := mkClass ["Pair"] [("second", (KObject "Leaf", false)); ("first", (KObject "Leaf", false))].
Definition pairs : registry := [("Pair", pair_class); ("Leaf", leaf_class)].
Definition shared_pair : heap := [mkObj "Pair" [("first", VObject 1); ("second", VObject 1)]; mkObj "Leaf" [("value", VScalar (SInt 7))]].
Theorem C12_order_refuted : exists r H a o s H' o', nth_error H a = Some o /\
  to_hdf 5 H r "1.5.0" 12%N a = Ok s /\ from_hdf 5 r s (tag o) = Ok (H', o') /\
  reach H o (Field "first") [] = reach H o (Field "second") [] /\
  reach H' o' (Field "first") [] <> None /\ reach H' o' (Field "second") [] <> None /\
  reach H' o' (Field "first") [] <> reach H' o' (Field "second") [].
Proof.
  exists pairs, shared_pair, 0, (mkObj "Pair" [("first", VObject 1); ("second", VObject 1)]).
  eexists. eexists. eexists. split; [reflexivity|]. split; [vm_compute; reflexivity|]. split; [vm_compute; reflexivity|].
  split; [reflexivity|]. split; [discriminate|]. split; discriminate.
Qed.
Print Assumptions C12_order_refuted.

(** Arrays created during saving may reuse the identifier of an earlier one; the earlier contents are then stored *)
Definition arrays_class : class := mkClass ["Detector"] [("training", (KArray, false)); ("guard", (KArray, false))].
Theorem C12_reused_identifiers_refuted : exists r H a o s H' o', nth_error H a = Some o /\
  to_hdf 5 H r "1.5.0" 12%N a = Ok s /\ from_hdf 5 r s (tag o) = Ok (H', o') /\
  array_of o "guard" = Some (weights 2) /\ array_of o' "guard" = Some (weights 1) /\ weights 1 <> weights 2.
Proof.
  exists [("Detector", arrays_class)], [mkObj "Detector" [("training", VArray true 9 (weights 1)); ("guard", VArray true 9 (weights 2))]], 0.
  eexists. eexists. eexists. eexists. split; [reflexivity|]. split; [vm_compute; reflexivity|]. split; [vm_compute; reflexivity|].
  split; [reflexivity|]. split; [reflexivity|discriminate].
Qed.
Print Assumptions C12_reused_identifiers_refuted.

(** * C13 *)
(** Whatever is written, numbers and strings are read back as last written under their name, and names never written
    yield the default or an error (for strings: the text "None") *)
Theorem C13_scalars : forall r H content fuel version timestamp hist st n k default,
  (forall a o, nth_error H a = Some o -> arrays_ok content (fields o)) -> arrays_ok content hist ->
  foldM (write_field (write_obj fuel H r) []) hist (new_file version timestamp) = Ok st -> n <> "version" -> n <> "timestamp" ->
  is_attribute k = true ->
  match last_scalar n hist with
  | Some s => (k = scalar_kind s -> deserialize_scalar (file st) [] n k default = Ok (VScalar s)) /\
              (k <> scalar_kind s -> k <> KStr -> deserialize_scalar (file st) [] n k default = Raise RuntimeError)
  | None => deserialize_scalar (file st) [] n k true = Ok VNone /\
            (k <> KStr -> deserialize_scalar (file st) [] n k false = Raise RuntimeError) /\
            (k = KStr -> deserialize_scalar (file st) [] n k false = Ok (VScalar (SStr "None")))
  end.
Proof.
  intros r H content fuel v t hist st n k d HH Hh Hf Hv Ht Hk.
  pose proof (history_attr content H r fuel HH [] hist _ st n (wf_new_file content v t) (or_introl eq_refl) Hh Hf) as E.
  assert (E0 : lookup [n] (attrs (file (new_file v t))) = None).
  { cbn [new_file file attrs lookup]. rewrite !path_eqb_false by congruence. reflexivity. }
  rewrite E0 in E. unfold deserialize_scalar. destruct (last_scalar n hist) as [s|].
  - rewrite E. split; intros Hx; destruct s, k; cbn [is_attribute scalar_kind] in *; try discriminate; try congruence; try reflexivity.
  - rewrite E. split; [reflexivity|]. split; intros Hx; destruct k; cbn [is_attribute] in *; congruence.
Qed.
Print Assumptions C13_scalars.

(** Integers are accepted exactly if 64 bits can represent them *)
Theorem C13_integer_range : forall w g st n z,
  ((- 2 ^ 63 <= z < 2 ^ 63)%Z -> exists st', write_field w g st (n, VScalar (SInt z)) = Ok st' /\ deserialize_scalar (file st') g n KInt false = Ok (VScalar (SInt z))) /\
  ((z < - 2 ^ 63 \/ 2 ^ 63 <= z)%Z -> write_field w g st (n, VScalar (SInt z)) = Raise OverflowError).
Proof.
  intros w g st n z. unfold write_field, serialize_scalar, int64. split; intro H.
  - destruct (Z.leb_spec (- 2 ^ 63) z) as [_|N]; [|lia]. destruct (Z.ltb_spec z (2 ^ 63)) as [_|N]; [|lia]. cbn [andb]. eexists. split; [reflexivity|].
    unfold deserialize_scalar. cbn [set_attr file attrs lookup]. rewrite path_eqb_refl. reflexivity.
  - destruct (Z.leb_spec (- 2 ^ 63) z) as [A|A]; destruct (Z.ltb_spec z (2 ^ 63)) as [B|B]; cbn [andb]; try reflexivity. lia.
Qed.
Print Assumptions C13_integer_range.

(** The first array written under a name is read back, whatever is written before or after under any name *)
Theorem C13_arrays : forall r H content fuel version timestamp hist st n default,
  (forall a o, nth_error H a = Some o -> arrays_ok content (fields o)) -> arrays_ok content hist ->
  foldM (write_field (write_obj fuel H r) []) hist (new_file version timestamp) = Ok st -> n <> "arrays" ->
  (forall cache u a, first_link n hist = Some (VArray cache u a) ->
     exists rs u', deserialize_array (file st) empty_reader [] n default = Ok (rs, VArray true u' a)) /\
  (first_link n hist = None ->
     deserialize_array (file st) empty_reader [] n true = Ok (empty_reader, VNone) /\
     deserialize_array (file st) empty_reader [] n false = Raise RuntimeError).
Proof.
  intros r H content fuel v t hist st n d HH Hh Hf Hn.
  assert (Hfr : has (new_file v t) [n] = false).
  { unfold has. cbn [new_file file entries lookup]. rewrite path_eqb_false by congruence. reflexivity. }
  pose proof (history_array content H r fuel HH hist _ st n (wf_new_file content v t) (soft_new_file v t) Hh Hf Hfr) as E.
  split.
  - intros cache u a Hl. rewrite Hl in E. unfold deserialize_array. destruct E as [E|[p [E1 E2]]].
    + rewrite E. eexists. eexists. reflexivity.
    + rewrite E1. cbn [empty_reader rarrays lookup]. rewrite E2. eexists. eexists. reflexivity.
  - intros Hl. rewrite Hl in E. unfold deserialize_array. rewrite (not_holds _ _ E). split; reflexivity.
Qed.
Print Assumptions C13_arrays.

(** A history with several kinds of values, repeated names and a nested object *)
Definition writes : list (string * value) :=
  [("value", VScalar (SInt 3)); ("tree", VObject 0); ("phase", VScalar (SComplex 1%N 2%N)); ("weights", VArray true 4 (weights 4));
   ("value", VScalar (SInt (-9))); ("other", VArray true 4 (weights 4)); ("weights", VArray true 6 (weights 6)); ("type", VScalar (SStr "x"))].
Example C13_met : exists st, foldM (write_field (write_obj 3 diamond nodes) []) writes (new_file "1.5.0" 12%N) = Ok st /\
  (forall a o, nth_error diamond a = Some o -> arrays_ok weights (fields o)) /\ arrays_ok weights writes /\
  last_scalar "value" writes = Some (SInt (-9)) /\ deserialize_scalar (file st) [] "value" KInt false = Ok (VScalar (SInt (-9))) /\
  deserialize_scalar (file st) [] "phase" KFloat true = Raise RuntimeError /\
  deserialize_scalar (file st) [] "gain" KFloat true = Ok VNone /\
  first_link "weights" writes = Some (VArray true 4 (weights 4)) /\
  deserialize_array (file st) empty_reader [] "other" false = Ok (mkR [] 1 [] [(["weights"; "left"; "tree"], (0, weights 4))], VArray true 0 (weights 4)).
Proof.
  eexists. split; [vm_compute; reflexivity|]. split.
  { intros a o Ho n u x Hin. destruct a as [|[|[|a]]]; cbn [nth_error diamond] in Ho; [| | |destruct a; discriminate];
    injection Ho as <-; cbn [node fields In] in Hin; repeat (destruct Hin as [Hin|Hin]; [try discriminate; injection Hin as _ <- <-; reflexivity|]); destruct Hin. }
  split.
  { intros n u x Hin. cbn [writes In] in Hin. repeat (destruct Hin as [Hin|Hin]; [try discriminate; injection Hin as _ <- <-; reflexivity|]); destruct Hin. }
  repeat split.
Qed.

(** The base group of a file already contains a group named "arrays" and attributes named "version" and "timestamp":
    what is stored under the first is lost, and the others are found although never written *)
Theorem C13_reserved_names_refuted : forall r H fuel version timestamp cache u a,
  (exists st, foldM (write_field (write_obj fuel H r) []) [("arrays", VArray cache u a)] (new_file version timestamp) = Ok st /\
     deserialize_array (file st) empty_reader [] "arrays" true = Raise TypeError) /\
  deserialize_scalar (file (new_file version timestamp)) [] "version" KStr true = Ok (VScalar (SStr version)) /\
  deserialize_scalar (file (new_file version timestamp)) [] "timestamp" KFloat true = Ok (VScalar (SFloat timestamp)).
Proof.
  intros r H fuel v t cache u a. split; [|split; reflexivity]. eexists. split; [reflexivity|]. reflexivity.
Qed.
Print Assumptions C13_reserved_names_refuted.
