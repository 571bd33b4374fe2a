(** Models hermespy/simulation/rf/blocks/amps.py: power amplifiers acting on every sample of a radio frequency signal.
    Signals are lists of streams of exact complex samples.  Gains and amplitudes are real numbers (infinities and nans, e.g. the default saturation
    amplitude, are not modelled); noise is added by the block's base class and not part of this file.  A sample of a result is [None] if it is not finite. *)
From Coq Require Import List Reals Bool Arith Lra.
From Coquelicot Require Import Complex.
From Verif Require Import Base Cplx.
Import ListNotations.
Open Scope R_scope.

(** numpy's x**y for x >= 0 and y > 0 *)
Definition npow (x y : R) : R := if Req_EM_T x 0 then 0 else Rpower x y.

(** ** Interpolation of the custom amplifier (np.interp): the points have to be sorted, the values at the ends continue outside *)
Fixpoint interp_from (x0 y0 : R) (l : list (R * R)) (x : R) : R :=
  match l with
  | [] => y0
  | (x1, y1) :: r => if Rlt_dec x x1 then y0 + (x - x0) * ((y1 - y0) / (x1 - x0)) else interp_from x1 y1 r x
  end.
Definition interp (xs ys : list R) (x : R) : result R :=
  if negb (length xs =? length ys)%nat then Raise ValueError
  else match combine xs ys with
       | [] => Raise ValueError
       | (x0, y0) :: r => Ok (if Rlt_dec x x0 then y0 else interp_from x0 y0 r x)
       end.

(** ** The amplifiers and the checks of their parameters *)
Inductive characteristic :=
| Linear                                             (* 137-147 *)
| Clipping (saturation : R)                          (* 228-279 *)
| Rapp (smoothness : R)                              (* 323-393 *)
| Saleh (a_alpha a_beta p_alpha p_beta : R)          (* 412-526 *)
| Custom (input gains phases : list R)               (* 551-626 *)
| Memory (rows cols : nat) (coefficients : nat -> nat -> C). (* 661-746 *)
Record amplifier := Amplifier { gain : R; kind : characteristic }.
(** 295-304, 379-386, 490-518, 607-610: [len(input) != len(gains) != len(phases)] is a chain of two comparisons.  The factors of Saleh's phase are not checked. *)
Definition parameters_ok (c : characteristic) : bool :=
  match c with
  | Linear => true
  | Clipping s => if Rlt_dec s 0 then false else true
  | Rapp p => if Rle_dec p 0 then false else true
  | Saleh aa ab _ _ => if Rlt_dec aa 0 then false else if Rlt_dec ab 0 then false else true
  | Custom i g p => negb (negb (length i =? length g)%nat && negb (length g =? length p)%nat)
  | Memory _ _ _ => true
  end.
(** The constructors; the gain is checked by its setter (86-93) *)
Definition construct (g : R) (c : characteristic) : result amplifier :=
  if parameters_ok c then (if Rlt_dec g 0 then Raise ValueError else Ok (Amplifier g c)) else Raise ValueError.

(** ** One sample (the argument is already multiplied by the gain, 116-123) *)
(** exp(1j * angle(z)) is z / |z|, and 1 at the origin *)
Definition direction (z : C) : C := if Req_EM_T (Cmod z) 0 then RtoC 1 else (z / RtoC (Cmod z))%C.
Definition distort (c : characteristic) (z : C) : result (option C) :=
  let a := Cmod z in
  match c with
  | Linear => Ok (Some z)
  | Clipping s => Ok (Some (if Rlt_dec s a then (RtoC s * direction z)%C else z))
  | Rapp p => Ok (Some (z * RtoC (Rpower (1 + npow a (2 * p)) (- 1 / (2 * p))))%C)
  | Saleh aa ab pa pb =>
      Ok (if Req_EM_T (1 + pb * a ^ 2) 0 then None
          else Some (z * RtoC (aa / (1 + ab * a ^ 2)) * cis (pa * a ^ 2 / (1 + pb * a ^ 2)))%C)
  | Custom i g p => do k <- interp i g a; do f <- interp i p a; Ok (Some (z * RtoC k * cis f)%C)
  | Memory _ _ _ => Raise ValueError
  end.
(** A block with one port (95-123).  The windows of the memory polynomial are taken from a signal of two dimensions, for which numpy demands a window
    of two dimensions and raises otherwise (734-736).  np.interp checks its points even if there are no samples to be interpolated. *)
Definition amplify (pa : amplifier) (x : list (list C)) : result (list (list (option C))) :=
  if negb (length x =? 1)%nat then Raise ValueError
  else do _ <- match kind pa with
               | Memory _ _ _ => Raise ValueError
               | Custom i g p => do _ <- interp i g 0; interp i p 0
               | _ => Ok 0
               end;
       mapM (mapM (fun z => distort (kind pa) (z * RtoC (gain pa))%C)) x.
