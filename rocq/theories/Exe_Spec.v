(** Vocabulary for executables. *)
From Coq Require Import String List Arith Bool.
From Verif Require Import Base Exe_Model.
Import ListNotations.

(** [later] contains everything [earlier] does *)
Definition keeps (earlier later : filesystem) : Prop := forall p k, kind_of earlier p = Some k -> kind_of later p = Some k.
(** No ancestor of the path (nor the path) is a file *)
Definition unobstructed (fs : filesystem) (p : path) : Prop := forall a b, p = a ++ b -> a <> [] -> kind_of fs a <> Some File.
(** The indices of the directories processes have created *)
Definition created (processes : list process) : list nat := flat_map (fun q => match q with Done i => [i] | _ => [] end) processes.
(** Styles set one after the other, exceptions caught *)
Fixpoint set_styles (available : list string) (s : styles) (values : list string) : styles :=
  match values with [] => s | v :: r => set_styles available (match set_style available s v with Ok s' => s' | Raise _ => s end) r end.
(** Letters and names that differ at most by their case *)
Definition same_letter (c d : Ascii.ascii) : Prop :=
  c = d \/ exists k, k < 26 /\ (c = Ascii.ascii_of_nat (65 + k) /\ d = Ascii.ascii_of_nat (97 + k) \/ c = Ascii.ascii_of_nat (97 + k) /\ d = Ascii.ascii_of_nat (65 + k)).
Inductive same_name : string -> string -> Prop :=
| no_letters : same_name EmptyString EmptyString
| letters c d s t : same_letter c d -> same_name s t -> same_name (String c s) (String d t).
(** What is reported at a verbosity, from everything to nothing *)
Inductive louder : verbosity -> verbosity -> Prop :=
| all_info : louder ALL INFO | info_warning : louder INFO WARNING | warning_error : louder WARNING ERROR | error_none : louder ERROR NONE
| louder_trans u v w : louder u v -> louder v w -> louder u w.
