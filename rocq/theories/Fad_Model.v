(** Parameters of multipath fading channels: hermespy/channel/fading/fading.py, exponential.py, cost259.py, tdl.py, correlation.py.
    Simplifications: numbers are exact; random draws are parameters (Cons_Model covers them); paths of equal delay keep their order when sorted
    (numpy's argsort may exchange them); the number of sinusoids given to constructors is positive. *)
From Coq Require Import List Arith ZArith Reals Lra Bool.
From Coquelicot Require Import Complex.
From Verif Require Import Base Cplx Chan_Model.
Import ListNotations.
Local Open Scope R_scope.

(** ** Taps (fading.py:606-754); a rice factor of None is infinite *)
Record tap := Tap { t_delay : R; t_power : R; t_rice : option R }.
Definition delay_leb (a b : tap) : bool := if Rle_dec (t_delay a) (t_delay b) then true else false.
Fixpoint insert (a : tap) (l : list tap) : list tap := match l with [] => [a] | b :: t => if delay_leb a b then a :: l else b :: insert a t end.
(** 707-711 *)
Definition sort_taps (l : list tap) : list tap := fold_right insert [] l.
Fixpoint zip3 (ds ps : list R) (ks : list (option R)) : list tap :=
  match ds, ps, ks with d :: ds', p :: ps', k :: ks' => Tap d p k :: zip3 ds' ps' ks' | _, _, _ => [] end.
Definition negative (x : R) : bool := if Rlt_dec x 0 then true else false.
(** [c_drawn] is the number of sinusoids at construction, which determines the gains (721-733) and the shapes of the random variables (748-754);
    [c_sinusoids] and [c_los] are the properties num_sinusoids and los_angle *)
Record fading := Fading_ { c_taps : list tap; c_drawn : nat; c_sinusoids : nat; c_los : R }.
(** __init__ (606-754); [u] is the angle drawn if there is no configured one (713) *)
Definition make_fading (ds ps : list R) (ks : list (option R)) (sinusoids : nat) (los : option R) (u : R) : result fading :=
  if (length ds <? 1)%nat then Raise ValueError
  else if negb (length ds =? length ps)%nat || negb (length ps =? length ks)%nat then Raise ValueError
  else if existsb negative ds then Raise ValueError
  else if existsb negative ps then Raise ValueError
  else if existsb (fun k => match k with None => false | Some k => negative k end) ks then Raise ValueError
  else Ok (Fading_ (sort_taps (zip3 ds ps ks)) sinusoids sinusoids (match los with None => u | Some a => a end)).
(** Setters 873-878, 889-891 *)
Definition set_sinusoids (c : fading) (n : nat) : fading := Fading_ (c_taps c) (c_drawn c) n (c_los c).
Definition set_los (c : fading) (a : R) : fading := Fading_ (c_taps c) (c_drawn c) (c_sinusoids c) a.
(** The draws of a sample between zero and one, by path and sinusoid (492-499) *)
Record drawn := Drawn { d_los_angle : nat -> R; d_los_phase : nat -> R; d_angle : nat -> nat -> R; d_phase : nat -> nat -> R }.
(** One path of a sample (492-515).  The variable of the angles (743-747) is never a number, since los_angle is never None (713) *)
Definition sample_path (c : fading) (u : drawn) (i : nat) (t : tap) : path :=
  let '(lg, ng) := rice_gains (t_rice t) (c_drawn c) in
  Path (t_delay t) (t_power t) lg ng (2 * PI * d_los_angle u i) (- PI + 2 * PI * d_los_phase u i)
       (map (fun k => (- PI + 2 * PI * d_angle u i k, - PI + 2 * PI * d_phase u i k)) (seq 0 (c_drawn c))).
Definition sample_paths (c : fading) (u : drawn) : list path := map (fun p => sample_path c u (fst p) (snd p)) (combine (seq 0 (length (c_taps c))) (c_taps c)).
(** expected_energy_scale (289-291) *)
Definition energy_scale (c : fading) (gain : R) : R := gain * fold_right Rplus 0 (map t_power (c_taps c)).

(** ** Exponential profiles (exponential.py:81-101) *)
(** 90, 96 *)
Definition alpha (tap_interval rms_delay : R) : R :=
  let r := rms_delay / tap_interval in - 2 * ln ((- 1 + sqrt (1 + 4 * (r * r))) / (2 * r)).
Definition truncation : R := / 100000.
(** 97: int(-np.ceil(x)) *)
Definition max_delay_in_samples (a : R) : Z := Int_part (- (ln truncation / a)).
(** 99-101; np.arange of a negative number is empty *)
Definition exponential_taps (tap_interval a : R) : list tap :=
  map (fun k => Tap (INR k * tap_interval) (exp (- a * INR k)) (Some 0)) (seq 0 (Z.to_nat (max_delay_in_samples a + 1))).
Definition make_exponential (tap_interval rms_delay : R) (sinusoids : nat) (los : option R) (u : R) : result fading :=
  if Rle_dec tap_interval 0 then Raise ValueError
  else if Rle_dec rms_delay 0 then Raise ValueError
  else let l := exponential_taps tap_interval (alpha tap_interval rms_delay) in
       make_fading (map t_delay l) (map t_power l) (map t_rice l) sinusoids los u.

(** ** Tables in decibels (cost259.py:210-211, tdl.py:377-378), scaled delays (tdl.py:381) *)
Definition normalised (db : list R) : list R :=
  let p := map (fun x => Rpower 10 (x / 10)) db in map (fun x => x / fold_right Rplus 0 p) p.
(** tdl.py:96-99, 376-397 for one of its tables: normalized delays, powers in decibels, rice factors *)
Definition make_tdl (delays db : list R) (rices : list (option R)) (rms_delay : R) (sinusoids : nat) (los : option R) (u : R) : result fading :=
  if Rlt_dec rms_delay 0 then Raise ValueError
  else make_fading (map (fun d => rms_delay * d) delays) (normalised db) rices sinusoids los u.
(** Table of the type D (tdl.py:286-321) *)
Definition tdl_d_delays : list R := [0; 0.035; 0.612; 1.363; 1.405; 1.804; 2.596; 1.775; 4.042; 7.937; 9.424; 9.708; 12.525].
Definition tdl_d_power_db : list R := [-13.5; -18.8; -21; -22.8; -17.9; -20.1; -21.9; -22.9; -27.8; -23.6; -24.8; -30; -27.7].
Definition tdl_d_rice_factors : list (option R) := Some 13.3 :: repeat (Some 0) 12.

(** ** Correlated antennas *)
(** An array: its number of antennas, of transmitting and of receiving antennas *)
Record counts := Counts { all_antennas : nat; transmitting : nat; receiving : nat }.
(** f ** e for a correlation of at least zero *)
Definition rpow (f e : R) : R := if Rle_dec f 0 then 0 else Rpower f e.
(** StandardAntennaCorrelation.sample_covariance (correlation.py:72-106): the number of antennas and the entries, for the correlation [f] of the
    terminal (receiving) or of the base station (transmitting) *)
Definition standard_covariance (f : R) (n : nat) : result (nat -> nat -> C) :=
  match n with
  | 1%nat => Ok (fun _ _ => RtoC 1)
  | 2%nat => Ok (fun i j => if Nat.eqb i j then RtoC 1 else RtoC f)
  | 4%nat => Ok (fun i j => RtoC (match (if (i <=? j)%nat then j - i else i - j)%nat with 0%nat => 1 | 1%nat => rpow f (1 / 9) | 2%nat => rpow f (4 / 9) | _ => f end))
  | _ => Raise RuntimeError
  end.
(** CustomAntennaCorrelation.sample_covariance (fading.py:107-117) of a matrix with [rows] rows *)
Definition custom_covariance (rows : nat) (m : nat -> nat -> C) (n : nat) : result (nat -> nat -> C) := if (rows <? n)%nat then Raise ValueError else Ok m.
(** _sample 475-489: [u] are the draws of a ten by ten variable (742), [cov] the antenna correlations
    of the receiving and of the transmitting side; the result has rows, columns and entries *)
Definition spatial_response (u : nat -> nat -> R) (cov : option ((nat -> result (nat -> nat -> C)) * (nat -> result (nat -> nat -> C)))) (rx tx : counts) : result (nat * nat * (nat -> nat -> C)) :=
  let rows := Nat.min 10 (all_antennas rx) in
  let cols := Nat.min 10 (all_antennas tx) in
  let h := fun i j => cis (2 * PI * u i j) in
  match cov with
  | None => Ok (rows, cols, h)
  | Some (cr, ct) =>
      do r <- cr (receiving rx);
      do t <- ct (transmitting tx);
      if negb (receiving rx =? rows)%nat || negb (transmitting tx =? cols)%nat then Raise ValueError
      else Ok (rows, cols, fun i j => csum (fun l => csum (fun k => r i k * h k l) rows * t l j)%C cols)
  end.
