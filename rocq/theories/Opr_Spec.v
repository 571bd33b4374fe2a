(** Vocabulary of the properties of static operators, slots and triggers *)
From Coq Require Import List Reals Bool Arith ZArith.
From Coquelicot Require Import Complex.
From Verif Require Import Base Opr_Model.
Import ListNotations.
Local Open Scope nat_scope.

(** The operator was added and not removed since *)
Definition registered (history : list slot_op) (o : nat) : Prop := exists a b, history = a ++ Add o :: b /\ ~ In (Remove o) b.
(** Index of the first occurrence *)
Fixpoint index (o : nat) (l : list nat) : nat := match l with [] => 0 | a :: l => if a =? o then 0 else S (index o l) end.
Definition silent (o : operator) : Prop := exists n, o = Silent n.
(** Duration of a signal *)
Definition seconds (s : signal) : R := (INR (num_columns s) / rate s)%R.
(** An operator of the device has the given frame duration *)
Definition has_frame (d : device) (v : R) : Prop := exists o, In o (transmitters d ++ receivers d) /\ frame_duration o (bandwidth d) = Ok v.
