(** Models the splitting of complex streams into real and imaginary parts and their recombination, hermespy/hardware_loop/precoding.py
    (line numbers without file name).

    Simplifications for the whole file
    - exact complex arithmetic; arrays are functions of their indices; rates, delays and noise powers, which are passed on, are left out;
    - which of the angles of a negative number numpy returns depends on signed zeros, so the angles of the quotients (69) are an argument;
    - a quotient by zero has no angle, and the mean of angles is then not a number: [None] stands for a signal without any number. *)
From Coq Require Import Reals Bool Arith.
From Coquelicot Require Import Complex.
From Verif Require Import Base Cplx.
Open Scope R_scope.

Record sig := Sig { streams : nat; width : nat; at_ : nat -> nat -> C }.
(** numpy assigns [a] rows to [b] rows *)
Definition fits (a b : nat) : bool := (Nat.eqb a b || Nat.eqb a 1)%bool.
(** 32-49: IQSplitter.encode_streams *)
Definition split (x : sig) (outputs : nat) : result sig :=
  if (fits (streams x) ((outputs + 1) / 2) && fits (streams x) (outputs / 2))%bool then
    Ok (Sig outputs (width x) (fun r i =>
      let z := at_ x (if Nat.eqb (streams x) 1 then 0%nat else (r / 2)%nat) i in
      if Nat.even r then RtoC (fst z) else RtoC (snd z)))
  else Raise ValueError.
(** 52-53, 94-95: num_transmit_input_streams, num_receive_output_streams *)
Definition half_streams (n : nat) : nat := (n / 2)%nat.
Fixpoint rsum (f : nat -> R) (n : nat) : R := match n with O => 0 | S k => rsum f k + f k end.
(** 69 *)
Definition mean (theta : nat -> nat -> R) (k n : nat) : R := rsum (fun r => rsum (theta r) n) k / (INR k * INR n).
(** 73-74: exp(1j angle(z)); the angle of zero is zero *)
Definition unit_of (z : C) : C := if Req_EM_T (Cmod z) 0 then RtoC 1 else (z / RtoC (Cmod z))%C.
Fixpoint any_below (p : nat -> bool) (n : nat) : bool := match n with O => false | S k => (any_below p k || p k)%bool end.
(** 78-91 with combineIQ (68-75); [theta] are the angles of the quotients *)
Definition combine (theta : nat -> nat -> R) (y : sig) : result (option sig) :=
  let k1 := ((streams y + 1) / 2)%nat in let k2 := (streams y / 2)%nat in
  if (Nat.eqb k1 k2 || Nat.eqb k1 1 || Nat.eqb k2 1)%bool then
    let k := if Nat.eqb k1 1 then k2 else k1 in
    let i_ r := at_ y (2 * (if Nat.eqb k1 1 then 0 else r))%nat in
    let q_ r := at_ y (2 * (if Nat.eqb k2 1 then 0 else r) + 1)%nat in
    if any_below (fun r => any_below (fun i => if Req_EM_T (Cmod (i_ r i)) 0 then true else false) (width y)) k then Ok None
    else
      let phi := mean theta k (width y) in
      Ok (Some (Sig k (width y) (fun r i =>
        let q := (cis (- phi) * q_ r i)%C in
        (RtoC (sqrt (Cmod (i_ r i) ^ 2 + Cmod q ^ 2)) * unit_of (q + i_ r i))%C)))
  else Raise ValueError.
