(** Vocabulary of the properties of audio devices *)
From Coq Require Import List Reals Bool Arith ZArith.
From Coquelicot Require Import Complex.
From Verif Require Import Base Cplx Aud_Model.
Import ListNotations.
Local Open Scope nat_scope.

(** Place of frequency [j] (of [n], negative ones in the upper half) on air, a quarter of the sampling rate and one bin higher *)
Definition on_air (n j : nat) : nat := (j + n / 4 + 1) mod n.
(** Frequencies that are neither moved to zero nor beyond the lower half of the spectrum *)
Definition audible (n j : nat) : Prop := 1 <= on_air n j < n / 2.
(** A signal of audible frequencies only *)
Definition fits (s : list C) : Prop := forall j, j < length s -> ~ audible (length s) j -> at0 (fft Backward s) j = RtoC 0.
(** Every channel records what is played, without delay *)
Definition looped (streams : list (list C)) : result (list (list C)) := do t <- transmission 0 streams; download t.
