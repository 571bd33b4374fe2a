(** Model of the propagation over 3GPP cluster delay lines: ClusterDelayLineSample of
    hermespy/channel/cdl/cluster_delay_lines.py (254-592, 732-756; line numbers without file name).

    Simplifications for the whole file
    - exact complex arithmetic; numpy arrays are functions of their indices (Chan_Model);
    - delays are not negative (C109 says when), so that int() rounds down and no index counts from the end; there is at least one
      cluster (the maximum of none, 316-319, raises);
    - the responses of the antenna arrays to a queried position (473-478, 504-509) are arguments, two fields per antenna: those
      of [cartesian_array_response] (Ant_Model, C65); the exception for a query at the array itself is not modelled;
    - einsum's check that the signal has one stream per transmitting antenna is the exception ValueError. *)
From Coq Require Import List Reals ZArith Bool Arith.
From Coquelicot Require Import Complex.
From Verif Require Import Base Cplx Log_Model Rot_Model Ant_Model Chan_Model.
Import ListNotations.
Open Scope R_scope.

(** int() of a number that is not negative, and ceil() *)
Definition int_of (x : R) : nat := Z.to_nat (Int_part x).
Definition ceil_of (x : R) : nat := Z.to_nat (- Int_part (- x)).

(** A field: two polarizations; the Jones matrix of a ray by rows *)
Definition field := (C * C)%type.
Record ray := mkRay { aoa : R; zoa : R; aod : R; zod : R; jones : field * field }.
Record cluster := mkCluster { c_delay : R; c_power : R; c_rays : list ray }.
(** 279-319; all clusters have the same number of rays, the columns of the arrays (315). *)
Record sample := mkSample { line_of_sight : bool; rice_factor : R; delay_offset : R; delay_spread : R; num_rays : nat; clusters : list cluster }.
(** The link state: responses to queried positions, numbers of antennas, poses, velocities, bandwidth and carrier *)
Record ends := mkEnds { tx : vec -> nat -> field; rx : vec -> nat -> field; n_tx : nat; n_rx : nat;
  tx_position : vec; rx_position : vec; tx_velocity : vec; rx_velocity : vec; bandwidth : R; carrier : R }.

(** 316-319: np.max of a list that is not empty *)
Definition list_max (l : list R) : R := match l with [] => 0 | x :: r => fold_left Rmax r x end.
Definition max_delay (s : sample) : R :=
  let d := map c_delay (clusters s) in
  Rmax (list_max (map (fun t => t + delay_spread s * (256 / 100)) (firstn 3 d))) (list_max d) + delay_offset s.
(** 405-407 *)
Definition expected_energy_scale (s : sample) : R := fold_right Rplus 0 (map c_power (clusters s)).

(** 257-262 *)
Definition subcluster_indices : list (list nat) := [[0; 1; 2; 3; 4; 5; 6; 7; 18; 19]; [8; 9; 10; 11; 16; 17]; [12; 13; 14; 15]]%nat.
(** 433-434 *)
Definition num_split (s : sample) : nat := Nat.min 2 (length (clusters s)).
Definition virtual_clusters (s : sample) : nat := (3 * num_split s + (length (clusters s) - 2))%nat.
(** 437-442 *)
Definition virtual_delays (s : sample) : list R :=
  flat_map (fun c => map (fun f => c_delay c + delay_spread s * f) [0; 128 / 100; 256 / 100]) (firstn (num_split s) (clusters s)) ++
  map c_delay (skipn (num_split s) (clusters s)).
(** 451-456 *)
Definition cluster_of (v : nat) : nat := if Nat.ltb v 6 then (v / 3)%nat else (v - 4)%nat.
Definition rays_of (s : sample) (c : nat) : list nat :=
  if Nat.ltb c (num_split s) then nth c subcluster_indices [] else seq 0 (num_rays s).
(** 450-467: cluster, ray and delay of the rays in the order they are generated *)
Definition visits (s : sample) : list (nat * nat * R) :=
  flat_map (fun v => map (fun r => (cluster_of v, r, nth v (virtual_delays s) 0)) (rays_of s (cluster_of v))) (seq 0 (virtual_clusters s)).

(** A path of propagation (495, 523) *)
Record path := mkPath { channel : nat -> nat -> C; impulse : nat -> C; p_delay : R }.
(** rx @ matrix @ tx.T for one pair of antennas (481-486, 513-518) *)
Definition couple (a : field) (m : field * field) (b : field) : C :=
  (fst a * (fst (fst m) * fst b + snd (fst m) * snd b) + snd a * (fst (snd m) * fst b + snd (snd m) * snd b))%C.
(** The wave vector (488-490) *)
Definition wave_vector (azimuth zenith : R) : vec := V (cos azimuth * sin zenith) (sin azimuth * sin zenith) (cos zenith).
(** 429-430 *)
Definition nlos_scale (s : sample) : R := if line_of_sight s then / sqrt (1 + db2lin (rice_factor s) Power) else 1.
(** Doppler rotation (445-447, 491-493) *)
Definition rotation_of (e : ends) (k : vec) (i : nat) : C :=
  cis (2 * PI * dot k (vsub (rx_velocity e) (tx_velocity e)) * (carrier e / 299792458 * INR i / bandwidth e)).
(** 459-495; the unit vectors of the directions (469-470) are the queried positions *)
Definition ray_path (s : sample) (e : ends) (c : cluster) (r : ray) (delay : R) : path :=
  mkPath (fun i j => (couple (rx e (From_Spherical (aoa r) (zoa r)) i) (jones r) (tx e (From_Spherical (aod r) (zod r)) j) *
                      RtoC (sqrt (c_power c / INR (num_rays s)) * nlos_scale s))%C)
         (rotation_of e (wave_vector (aoa r) (zoa r))) delay.
(** 498-523 *)
Definition los_matrix : field * field := ((RtoC 1, RtoC 0), (RtoC (-1), RtoC 0)).
Definition los_path (s : sample) (e : ends) : path :=
  let k := db2lin (rice_factor s) Power in
  let v := vsub (rx_position e) (tx_position e) in
  mkPath (fun i j => (couple (rx e (tx_position e) i) los_matrix (tx e (rx_position e) j) * RtoC (sqrt (k / (1 + k))))%C)
         (fun i => (cis (- (2 * PI * norm v * (carrier e / 299792458))) * rotation_of e (vscale (/ norm v) v) i)%C)
         (match clusters s with [] => 0 | c :: _ => c_delay c end).
(** 409-523; selecting a ray that does not exist raises IndexError. *)
Definition visit_path (s : sample) (e : ends) (v : nat * nat * R) : result path :=
  let '(c, r, d) := v in
  match nth_error (clusters s) c with
  | None => Raise IndexError
  | Some k => match nth_error (c_rays k) r with
              | None => Raise IndexError
              | Some y => Ok (ray_path s e k y d)
              end
  end.
Definition paths (s : sample) (e : ends) : result (list path) :=
  do l <- mapM (visit_path s e) (visits s);
  Ok (l ++ if line_of_sight s then [los_path s e] else []).

(** 548, 582 *)
Definition samples_of (s : sample) (e : ends) (p : path) : nat := int_of ((p_delay p + delay_offset s) * bandwidth e).
(** InterpolationMode (core/definitions.py:53, 75, 85) *)
Inductive interpolation := NEAREST | SINC.
(** 526-558; a section of the output that is too short cannot be added to (549-551), unless the signal has a single sample, which is not
    modelled: C110_superposition shows that no section is too short. *)
Definition propagate (s : sample) (e : ends) (m : interpolation) (b : blk) : result blk :=
  let n := samples b in
  let len := (n + ceil_of (max_delay s * bandwidth e))%nat in
  if negb (Nat.eqb (streams b) (n_tx e)) then Raise ValueError
  else
    do l <- paths s e;
    do y <- fold_left (fun acc p =>
        do a <- acc;
        match m with
        | SINC => Ok a
        | NEAREST =>
            let d := samples_of s e p in
            if Nat.leb (d + n) len then
              Ok (fun r j => if (Nat.leb d j && Nat.ltb j (d + n))%bool
                             then (a r j + csum (fun t => channel p r t * x b t (j - d)%nat * impulse p (j - d)%nat)%C (n_tx e))%C else a r j)
            else Raise ValueError
        end) l (Ok (fun _ _ => RtoC 0));
    Ok (Blk (n_rx e) len (offset b) y).
(** 561-592 *)
Definition state (s : sample) (e : ends) (num_samples max_num_taps : nat) : result csi :=
  let top := Nat.min max_num_taps (ceil_of (max_delay s * bandwidth e)) in
  do l <- paths s e;
  do h <- fold_left (fun acc p =>
      do a <- acc;
      let d := samples_of s e p in
      if Nat.leb max_num_taps d then Ok a
      else if Nat.ltb top d then Raise IndexError
      else Ok (fun r t i k => if Nat.eqb k d then (a r t i k + channel p r t * impulse p i)%C else a r t i k)) l (Ok (fun _ _ _ _ => RtoC 0));
  Ok (impulse_csi (n_rx e) (n_tx e) num_samples (1 + top) h).

(** 732-756 *)
Definition turned (r : ray) : ray := mkRay (aod r) (zod r) (aoa r) (zoa r) (jones r).
Definition reciprocal (s : sample) : sample :=
  mkSample (line_of_sight s) (rice_factor s) (delay_offset s) (delay_spread s) (num_rays s)
           (map (fun c => mkCluster (c_delay c) (c_power c) (map turned (c_rays c))) (clusters s)).
