(** Vocabulary of the properties of pilots and Schmidl-Cox synchronization *)
From Coq Require Import List Reals Bool Arith ZArith.
From Coquelicot Require Import Complex.
From Verif Require Import Base Cplx Scx_Model.
Import ListNotations.
Local Open Scope nat_scope.

(** A stream of [n] samples which is silent but for [len = 2 * half] samples from sample [d] on, the second half of which is the first one turned by [u] *)
Definition repeating (n d half : nat) (u : C) (s : list C) : Prop :=
  length s = n /\ (forall l, l < d \/ d + 2 * half <= l -> at0 s l = RtoC 0) /\ (forall i, i < half -> at0 s (d + half + i) = (u * at0 s (d + i))%C).
(** Samples turned by [w] radians more each *)
Definition shifted (w : R) (s : list C) : list C := tab (length s) (fun t => (at0 s t * cis (w * INR t))%C).
(** The pilot [p] with gain [g], [d] samples of silence before and [r] after it *)
Definition embedded (d r : nat) (p : list C) (g : C) : list C := repeat (RtoC 0) d ++ map (Cmult g) p ++ repeat (RtoC 0) r.
(** Operations after which cached pilots remain valid: elements are replaced by elements, and of the waveform only the number of subcarriers changes *)
Definition harmless (dc : bool) (r : nat -> list C) (o : op) : Prop :=
  match o with
  | Elements e => e <> None
  | Waveform w => forall v, w = Some v -> suppress v = dc /\ pseudo_random v = r
  | Generate _ => True
  end.
