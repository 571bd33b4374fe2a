(** Evaluators of beam patterns and self-interference: hermespy/simulation/evaluators/beamforming.py and interference.py.
    Simplifications: numbers are exact, [None] stands for a float that is not finite; the array's pose is the same at transmission and evaluation (221-228 query the
    current state); figures and serialization are not modelled. *)
From Coq Require Import List Reals Bool Arith.
From Coquelicot Require Import Complex.
From Verif Require Import Base Cplx Rot_Model Ant_Model Beam_Model.
Import ListNotations.
Open Scope R_scope.

(** np.sum, np.linalg.norm(...) ** 2, and division, of which nothing is known for a zero divisor *)
Definition add_up (l : list R) : R := fold_right Rplus 0 l.
Definition norm2 (l : list C) : R := add_up (map (fun z => Cmod z ^ 2) l).
Definition ratio (a b : R) : option R := if Req_EM_T b 0 then None else Some (a / b).
Fixpoint nan_sum (l : list (option R)) : option R :=
  match l with
  | [] => Some 0
  | Some x :: l' => match nan_sum l' with Some y => Some (x + y) | None => None end
  | None :: _ => None
  end.

(** np.linspace(0, stop, n, endpoint=False) and np.linspace(0, stop, n, endpoint=True) *)
Definition linspace_open (stop : R) (n : nat) : list R := map (fun k => INR k * (stop / INR n)) (seq 0 n).
Definition linspace_closed (stop : R) (n : nat) : list R := map (fun k => INR k * (stop / INR (n - 1))) (seq 0 n).

(** Assignment of a list to a row of n entries (numpy broadcasting) *)
Definition assign_row (n : nat) (l : list C) : result (list C) :=
  if Nat.eqb (length l) n then Ok l else if Nat.eqb (length l) 1 then Ok (repeat (at0 l 0) n) else Raise ValueError.

(** beamforming.py 126-147: the default codebook; np.meshgrid runs through the azimuths for each zenith *)
Definition default_codebook (arr : array) (carrier : R) (m : mode) : result (list (list C)) :=
  let n := length (select (match m with TX => TX | _ => RX end) (antennas arr)) in
  let angles := flat_map (fun z => map (fun a => (a, z)) (linspace_open (2 * PI) (2 * n))) (tl (linspace_closed PI n)) in
  do rows <- mapM (fun p => assign_row n (spherical_phase_response arr carrier (fst p) (snd p) m)) angles;
  Ok (repeat (RtoC 1) n :: rows).

(** SidelobeEvaluator (80-156): configuration and the last input and output of the device *)
Record evaluator := Evaluator { e_mode : mode; e_focus : focus; e_codebook : list (list C); e_input : option (list block); e_output : option (list block) }.
Definition make_evaluator (arr : array) (carrier : R) (m : mode) (f : focus) (codebook : option (list (list C))) : result evaluator :=
  do c <- match codebook with None => default_codebook arr carrier m | Some c => Ok c end;
  Ok (Evaluator m f c None None).
(** 158-166, 184-196: the callbacks with the blocks of the baseband and of the mixed signal, and the setters *)
Inductive event := Received (x : list block) | Transmitted (x : list block) | SetMode (m : mode) | SetFocus (f : focus).
Definition notify (e : evaluator) (v : event) : evaluator :=
  match v with
  | Received x => Evaluator (e_mode e) (e_focus e) (e_codebook e) (Some x) (e_output e)
  | Transmitted x => Evaluator (e_mode e) (e_focus e) (e_codebook e) (e_input e) (Some x)
  | SetMode m => Evaluator m (e_focus e) (e_codebook e) (e_input e) (e_output e)
  | SetFocus f => Evaluator (e_mode e) f (e_codebook e) (e_input e) (e_output e)
  end.

(** 235: np.linalg.norm(weights @ block, axis=1) ** 2 for one row of the weights *)
Definition beamformed_energy (w : list C) (x : block) : result R := do y <- weigh w x; Ok (norm2 y).
(** 236: np.linalg.norm(block) ** 2 *)
Definition block_energy (x : block) : R := add_up (map norm2 x).
(** 230-236 for all blocks; rows of different lengths cannot be concatenated *)
Definition energies (weights : list (list C)) (x : list block) : result (list R) :=
  mapM (fun w => do l <- mapM (beamformed_energy w) x; Ok (add_up l)) weights.

(** SidelobeEvaluation (39-58) *)
Record evaluation := Evaluation { powers : list (option R); focus_power : option R }.
Definition artifact (e : evaluation) : option R :=
  match focus_power e, nan_sum (powers e) with Some p, Some s => ratio p s | _, _ => None end.

(** 199-241 [evaluate] *)
Definition evaluate (arr : array) (carrier : R) (e : evaluator) : result evaluation :=
  do x <- match e_mode e with
          | TX => match e_output e with None => Raise RuntimeError | Some x => Ok x end
          | RX => match e_input e with None => Raise RuntimeError | Some x => Ok x end
          | DUPLEX => Raise RuntimeError
          end;
  let angles := spherical_angles arr (e_focus e) in
  let f := spherical_phase_response arr carrier (fst angles) (snd angles) (e_mode e) in
  if negb (forallb (fun r => Nat.eqb (length r) (length f)) (e_codebook e)) then Raise ValueError
  else
    do en <- energies (f :: e_codebook e) x;
    let total := add_up (map block_energy x) in
    let q := map (fun v => ratio v total) en in
    Ok (Evaluation (tl q) (hd None q)).

(** * interference.py *)
(** What is evaluated of a device input: powers per stream of the impinging signals, the leaking signal (if any) and the noise *)
Record device_input := DeviceInput { i_impinging : list (list R); i_leaking : option (list R); i_noise : list R }.
(** [_input] of SI (29-69): only the callback creates the attribute *)
Definition si_state := option device_input.
Definition si_notify (s : si_state) (i : device_input) : si_state := Some i.
(** 82-88 [SI.evaluate] *)
Definition si_evaluate (s : si_state) : result (list R) :=
  match s with
  | None => Raise AttributeError
  | Some i => match i_leaking i with None => Raise AttributeError | Some l => Ok l end
  end.
(** Elementwise operations of arrays of equal length or with a single entry *)
Definition broadcast {A} (f : R -> R -> A) (a b : list R) : result (list A) :=
  if Nat.eqb (length a) (length b) then Ok (map (fun p => f (fst p) (snd p)) (combine a b))
  else match a, b with
       | [x], _ => Ok (map (f x) b)
       | _, [y] => Ok (map (fun x => f x y) a)
       | _, _ => Raise ValueError
       end.
(** += keeps the shape of its target (134) *)
Definition add_into (a b : list R) : result (list R) :=
  do c <- broadcast Rplus a b; if Nat.eqb (length c) (length a) then Ok c else Raise ValueError.
Fixpoint add_all (a : list R) (l : list (list R)) : result (list R) :=
  match l with [] => Ok a | b :: l' => do c <- add_into a b; add_all c l' end.
(** 118-139 [SSINR.evaluate] *)
Definition ssinr_evaluate (s : si_state) : result (list (option R)) :=
  match s with
  | None => Raise AttributeError
  | Some i =>
    do si <- match i_leaking i with None => Raise AttributeError | Some l => Ok l end;
    do p <- match i_impinging i with [] => Raise IndexError | x :: l => add_all (repeat 0 (length x)) (x :: l) end;
    do d <- broadcast Rplus si (i_noise i);
    broadcast ratio p d
  end.
