(** Spatially consistent random variables, with exact arithmetic.
    Models hermespy/channel/consistent.py: ConsistentVariable (33-90), samples and realizations (143-200, 216-251),
    ConsistentGenerator (269-459) and the distributions (462-498).
    Simplifications: floating point numbers are real numbers; random draws are parameters; the gaussian distribution function of
    scipy is a parameter; scipy's bisect returns the root it brackets; serialization is not modelled here. *)
From Coq Require Import List Reals ZArith Bool Arith.
From Verif Require Import Base Rot_Model.
Import ListNotations.
Open Scope R_scope.

(** ** Variables and generators as objects; variables and generators are numbered *)
(** Offset and registered variables of a generator (294-297) *)
Record generator := Gen { g_offset : nat; g_variables : list nat }.
(** Shapes and offsets of all variables (45-73), all generators *)
Record world := World { shape : nat -> list nat; offset : nat -> nat; generators : nat -> generator }.
(** size (47): the product of the shape *)
Definition size (w : world) (v : nat) : nat := fold_right Nat.mul 1%nat (shape w v).
Definition update {A} (f : nat -> A) (k : nat) (a : A) : nat -> A := fun j => if Nat.eqb j k then a else f j.
(** add_variable (353-367) *)
Definition add_variable (w : world) (g v : nat) : world * nat :=
  let x := generators w g in
  if existsb (Nat.eqb v) (g_variables x) then (w, offset w v)
  else (World (shape w) (update (offset w) v (g_offset x)) (update (generators w) g (Gen (g_offset x + size w v) (g_variables x ++ [v]))), g_offset x).
Definition add_all (w : world) (l : list (nat * nat)) : world := fold_left (fun x p => fst (add_variable x (fst p) (snd p))) l w.
(** Before anything is registered *)
Definition fresh (sh : nat -> list nat) : world := World sh (fun _ => 0%nat) (fun _ => Gen 0 []).
(** The number of scalars a realization draws (422-425) *)
Definition num_scalars (w : world) (g : nat) : nat := fold_left (fun n v => (n + size w v)%nat) (g_variables (generators w g)) 0%nat.

(** ** Realizations *)
(** One sinusoid of a scalar: frequencies for both positions, phase *)
Record sinusoid := Sin { f_a : vec; f_b : vec; phase : R }.
Inductive realization := Static (scalars : list R) | Dual (num_sinusoids : nat) (scalars : list (list sinusoid)).
(** sample (188-200, 250-251) *)
Definition sample_scalar (k : nat) (l : list sinusoid) (a b : vec) : R :=
  sqrt (2 / INR k) * fold_right (fun s acc => cos (dot a (f_a s) + dot b (f_b s) + phase s) + acc) 0 l.
Definition sample (r : realization) (a b : vec) : list R :=
  match r with Static l => l | Dual k l => map (fun s => sample_scalar k s a b) l end.
(** fetch_scalars (155-156, 232-233) and reshaping (75-90), which keeps the order of entries *)
Definition fetch (w : world) (v : nat) (scalars : list R) : result (list R) :=
  let l := firstn (size w v) (skipn (offset w v) scalars) in
  if Nat.eqb (length l) (size w v) then Ok l else Raise ValueError.
(** The distributions (462-498) *)
Definition gaussian (w : world) (v : nat) (scalars : list R) (mean std : R) : result (list R) :=
  do l <- fetch w v scalars; Ok (map (fun s => mean + std * s) l).
Definition uniform (cdf : R -> R) (w : world) (v : nat) (scalars : list R) : result (list R) :=
  do l <- fetch w v scalars; Ok (map cdf l).
Definition boolean (w : world) (v : nat) (scalars : list R) : result (list bool) :=
  do l <- fetch w v scalars; Ok (map (fun s => if Rlt_dec 0 s then true else false) l).

(** ** Drawing realizations *)
(** __radial_velocity_cdf (271-285) *)
Definition radial_cdf (fr a u : R) : R := 2 / PI * atan (2 * PI * fr / a) - 4 * a * fr / (4 * PI ^ 2 * fr ^ 2 + a ^ 2) - u.
(** The loop that doubles the upper bound (393-400), with at most [fuel] rounds *)
Fixpoint expand (fuel : nat) (fr_max a u : R) : option R :=
  if Rlt_dec (radial_cdf fr_max a u) 0 then match fuel with O => None | S n => expand n (fr_max * 2) a u end else Some fr_max.
(** The loop over the candidates (393-403): the upper bounds given to bisect *)
Fixpoint bounds (fuel : nat) (fr_max a : R) (us : list R) : option (list R) :=
  match us with
  | [] => Some []
  | u :: r => match expand fuel fr_max a u with None => None | Some m => match bounds fuel m a r with None => None | Some l => Some (m :: l) end end
  end.
(** u_candidates (389) *)
Definition candidates (n : nat) : list R := map (fun i => INR i / INR n) (seq 0 n).
(** Draws for one sinusoid and one of the two positions: a radial velocity, an azimuth and a number between zero and two *)
Record wave := Wave { radial : R; azimuth : R; inclination : R }.
(** (439-457) *)
Definition frequency (d : wave) : vec :=
  let z := acos (1 - inclination d) in
  vscale (2 * PI * radial d) (V (cos (azimuth d) * sin z) (sin (azimuth d) * sin z) (cos z)).
(** realize (410-459): [normals] are the draws of a static realization, [waves] those of another one *)
Inductive decorrelation := Infinite | Distance (d : R).
Definition realize (w : world) (g : nat) (d : decorrelation) (k : nat) (normals : nat -> R) (waves : nat -> nat -> wave * wave * R) : result realization :=
  let n := num_scalars w g in
  match d with
  | Infinite => Ok (Static (map normals (seq 0 n)))
  | Distance d => if Req_EM_T d 0 then Raise ZeroDivisionError
    else Ok (Dual k (map (fun i => map (fun j => let '(p, q, ph) := waves i j in Sin (frequency p) (frequency q) ph) (seq 0 k)) (seq 0 n)))
  end.
