(** Vocabulary for the statements about RF chains (C30, C31). *)
From Coq Require Import List Arith Bool.
From Verif Require Import Base Rf_Model.
Import ListNotations.

(** The input and the output side of a connect call. *)
Definition in_side (a b : port) : port := if p_isin a then a else b.
Definition out_side (a b : port) : port := if p_isin a then b else a.

(** A single wire: output port [w_op] of block [w_o] feeds input port [w_ip] of block [w_i]. *)
Record wire := mkWire { w_o : nat; w_op : nat; w_i : nat; w_ip : nat }.

(** Wires a call asks for. *)
Definition wires_of (a b : port) : list wire :=
  map (fun p => mkWire (p_ref (out_side a b)) (fst p) (p_ref (in_side a b)) (snd p))
      (combine (p_idx (out_side a b)) (p_idx (in_side a b))).

Section Chains.
Variable A : Type.
Notation chain := (chain A).

(** A call is acceptable: it joins an output and an input side of equally many
    ports which exist on the blocks. *)
Definition acceptable (c : chain) (a b : port) : Prop :=
  p_ref a < length (ch_blocks c) /\ p_ref b < length (ch_blocks c) /\
  p_isin a <> p_isin b /\ length (p_idx a) = length (p_idx b) /\
  (forall p, In p (p_idx (out_side a b)) -> p < b_out (block_at c (p_ref (out_side a b)))) /\
  (forall p, In p (p_idx (in_side a b)) -> p < b_in (block_at c (p_ref (in_side a b))) \/
                                           b_in (block_at c (p_ref (in_side a b))) = 0).

(** Wires recorded by the chain. *)
Definition wired (c : chain) (w : wire) : Prop :=
  exists ops ips, In (w_o w, (ops, ips)) (ch_inc c (w_i w)) /\
                  In (w_op w, w_ip w) (combine ops ips).

(** All wires requested by the acceptable calls of a history. *)
Fixpoint requested (c : chain) (l : list (op A)) : list wire :=
  match l with
  | [] => []
  | o :: t =>
      match o with
      | Connect a b =>
          match snd (connect c a b) with
          | None => wires_of a b
          | Some _ => []
          end
      | AddBlock _ => []
      end ++ requested (apply_op c o) t
  end.

(** The pairs (output block, input block) joined by the accepted calls of a history. *)
Fixpoint joined (c : chain) (l : list (op A)) : list (nat * nat) :=
  match l with
  | [] => []
  | o :: t =>
      match o with
      | Connect a b =>
          match snd (connect c a b) with
          | None => [(p_ref (out_side a b), p_ref (in_side a b))]
          | Some _ => []
          end
      | AddBlock _ => []
      end ++ joined (apply_op c o) t
  end.

(** A chain ready for propagation: no input port is fed twice, feeding blocks come
    earlier in some order, and ports exist. *)
Record sound (c : chain) : Prop := {
  s_once : forall r, NoDup (flat_map (fun e => snd (snd e)) (ch_inc c r));
  s_acyclic : exists rank : nat -> nat, forall r o ps, In (o, ps) (ch_inc c r) -> rank o < rank r;
  s_ports : forall r o ops ips, In (o, (ops, ips)) (ch_inc c r) ->
      length ops = length ips /\ (forall p, In p ops -> p < b_out (block_at c o)) /\
      (forall p, In p ips -> p < b_in (block_at c r)) }.

(** Blocks keep the number of samples and produce one stream per output port. *)
Definition shapely (c : chain) (ns : nat) : Prop :=
  forall r s, length s = b_in (block_at c r) -> Forall (fun x => length x = ns) s ->
    length (b_prop (block_at c r) s) = b_out (block_at c r) /\
    Forall (fun x => length x = ns) (b_prop (block_at c r) s).

(** [ports] lists the input ports of block [r] no wire leads to, in ascending order. *)
Definition unwired_ports (c : chain) (r : nat) (ports : list nat) : Prop :=
  ports = filter (fun p => negb (existsb (fun e => existsb (Nat.eqb p) (snd (snd e))) (ch_inc c r)))
                 (seq 0 (b_in (block_at c r))).

(** The output [out r] of every block is what the block makes of an input whose
    wired ports carry the outputs of the blocks they are wired to, whose unwired
    ports carry the external signal [ext r] in order, and are silent without one. *)
Definition block_equations (zero : A) (ns : nat) (c : chain) (ext : nat -> option (list (list A)))
  (out : nat -> list (list A)) : Prop :=
  forall r, exists input : list (list A),
    out r = b_prop (block_at c r) input /\ length input = b_in (block_at c r) /\
    (forall w, wired c w -> w_i w = r -> nth_error input (w_ip w) = nth_error (out (w_o w)) (w_op w)) /\
    (forall ports k p, unwired_ports c r ports -> nth_error ports k = Some p ->
        nth_error input p = match ext r with
                            | Some s => nth_error s k
                            | None => Some (repeat zero ns)
                            end).
End Chains.
Arguments acceptable {A}. Arguments wired {A}. Arguments requested {A}. Arguments joined {A}.
Arguments sound {A}. Arguments shapely {A}. Arguments unwired_ports {A}. Arguments block_equations {A}.
