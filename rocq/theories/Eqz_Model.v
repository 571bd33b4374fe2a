(** Channel equalization: hermespy/modem/waveform.py (ZeroForcingChannelEqualization.equalize_channel, 235-250) and
    hermespy/modem/waveform_single_carrier.py (SingleCarrierMinimumMeanSquareChannelEqualization.equalize_channel, 599-630).
    Simplifications: symbols and states are functions of stream, block and symbol with their numbers; arithmetic is exact, and the quotient by
    zero (infinity or not a number in numpy, no exception) is Coq's; numpy.linalg.pinv is an argument, given the numbers of rows and columns. *)
From Coq Require Import Arith Bool Reals.
From Coquelicot Require Import Complex.
From Verif Require Import Base Cplx.
Open Scope C_scope.

(** Symbols (modem/symbols.py): streams, blocks, symbols of each block *)
Record syms := { streams : nat; blocks : nat; width : nat; raw : nat -> nat -> nat -> C }.
(** StatedSymbols (modem/symbols.py 395-398 for the number of transmit streams): receiving stream, transmitting stream, block, symbol *)
Record stated := { sym : syms; tx : nat; states : nat -> nat -> nat -> nat -> C }.

(** numpy.linalg.pinv: numbers of rows and columns, matrix *)
Definition pinv_fun := nat -> nat -> (nat -> nat -> C) -> nat -> nat -> C.
(** The states of one symbol as a matrix: transpose (2, 3, 0, 1) of waveform.py 247, [:, :, b, s] of waveform_single_carrier.py 624 *)
Definition state_matrix (s : stated) (b k : nat) : nat -> nat -> C := fun r t => states s r t b k.
(** einsum "ijkl,lij->kij" (waveform.py 248), equalization @ symbol_slice (waveform_single_carrier.py 628) *)
Definition apply_inverse (pinv : pinv_fun) (s : stated) : syms :=
  {| streams := tx s; blocks := blocks (sym s); width := width (sym s);
     raw := fun t b k => csum (fun r => pinv (streams (sym s)) (tx s) (state_matrix s b k) t r * raw (sym s) r b k) (streams (sym s)) |}.

(** waveform.py 238-250 *)
Definition zero_forcing (pinv : pinv_fun) (s : stated) : syms :=
  if (streams (sym s) <? 2)%nat then
    {| streams := streams (sym s); blocks := blocks (sym s); width := width (sym s);
       raw := fun r b k => raw (sym s) r b k / csum (fun t => states s r t b k) (tx s) |}
  else apply_inverse pinv s.

(** waveform_single_carrier.py 599-630; one over the infinite signal to noise ratio is zero *)
Definition mmse (pinv : pinv_fun) (s : stated) : result syms :=
  if (tx s <? 2)%nat && (streams (sym s) <? 2)%nat then
    Ok {| streams := streams (sym s); blocks := blocks (sym s); width := width (sym s);
          raw := fun r b k => raw (sym s) r b k / (states s r 0%nat b k + RtoC 0) |}
  else if (streams (sym s) <? tx s)%nat then Raise RuntimeError
  else Ok (apply_inverse pinv s).
