(** Channels that delay signals: hermespy/channel/delay/delay.py (cited by line as del), spatial.py (spa) and random.py (ran), hermespy/tools/math.py (mat), with the propagation of Chan_Model and the
    consistent variables of Cons_Model.
    Simplifications: real numbers are exact; the gaussian distribution function of scipy is a parameter; hooks and serialization are not modelled here. *)
From Coq Require Import List Reals ZArith Bool Arith.
From Coquelicot Require Import Complex.
From Verif Require Import Base Cplx Rot_Model Ant_Model Cons_Model Chan_Model.
Import ListNotations.
Open Scope R_scope.

(** * Gains *)
(** mat 109-134 *)
Definition amplitude_path_loss (carrier distance : R) : result R :=
  if Req_EM_T (Rabs carrier) 0 then Raise ValueError else Ok (speed_of_light / Rabs carrier / (4 * PI * distance)).
(** del 102-122 *)
Definition path_gain (loss : bool) (gain carrier delay : R) : result R :=
  if loss then
    if Req_EM_T carrier 0 then Raise RuntimeError
    else if Rlt_dec 0 delay then do a <- amplitude_path_loss carrier (delay * speed_of_light); Ok (gain * a) else Ok gain
  else Ok gain.

(** * Samples *)
(** The link sampled: positions, numbers of antennas and the responses of both arrays towards the other's position, del 79-100 *)
Record link := Link { l_tx : vec; l_rx : vec; tx_antennas : nat; rx_antennas : nat; tx_response : nat -> C; rx_response : nat -> C; l_carrier : R; l_bandwidth : R }.
(** numpy compares component by component, del 84 *)
Definition same_place (a b : vec) : bool := if Req_EM_T (vx a) (vx b) then if Req_EM_T (vy a) (vy b) then if Req_EM_T (vz a) (vz b) then true else false else false else false.
Definition spatial_response (k : link) (r t : nat) : C := if same_place (l_rx k) (l_tx k) then RtoC 1 else (rx_response k r * tx_response k t)%C.
(** del 125-145 *)
Definition sample_propagate (loss : bool) (gain delay : R) (k : link) (s : blk) : result blk :=
  do g <- path_gain loss gain (l_carrier k) delay;
  Ok (delay_propagate (Delay (rx_antennas k) (tx_antennas k) delay (l_bandwidth k) g (spatial_response k)) s).

(** * Spatial delays, spa 29-33 *)
Definition spatial_delay (k : link) : R := norm (vsub (l_tx k) (l_rx k)) / speed_of_light.

(** * Random delays *)
(** ran 169-189: values are floating point numbers, tuples of numbers, or anything else *)
Inductive value := Float (v : R) | Tuple (l : list R) | Other.
Inductive setting := Fixed (d : R) | Between (low high : R).
Definition set_delay (v : value) : result setting :=
  match v with
  | Float v => if Rlt_dec v 0 then Raise ValueError else Ok (Fixed v)
  | Tuple [a; b] => if Rlt_dec a 0 then Raise ValueError else if Rlt_dec b 0 then Raise ValueError else if Rlt_dec b a then Raise ValueError else Ok (Between a b)
  | Tuple _ => Raise ValueError
  | Other => Raise ValueError
  end.
(** ran 203-209 *)
Definition set_decorrelation (d : decorrelation) : result decorrelation := match d with Infinite => Ok Infinite | Distance d => if Rlt_dec d 0 then Raise ValueError else Ok (Distance d) end.
(** ran 150-151: one generator with one scalar variable *)
Definition delay_world : world := fst (add_variable (fresh (fun _ => [1%nat])) 0 0).
(** ran 212-214 *)
Definition realize_delay (d : decorrelation) (k : nat) (normals : nat -> R) (waves : nat -> nat -> wave * wave * R) : result realization := realize delay_world 0 d k normals waves.
(** ran 65-81; [item] wants a single number *)
Definition random_delay (cdf : R -> R) (c : setting) (r : realization) (k : link) : result R :=
  match c with
  | Fixed d => Ok d
  | Between low high => do l <- uniform cdf delay_world 0 (sample r (l_tx k) (l_rx k)); match l with [u] => Ok (low + (high - low) * u) | _ => Raise ValueError end
  end.
(** del 209-212: the sample in the other direction keeps the delay *)
Definition turn (k : link) (rx : nat -> C) (tx : nat -> C) : link := Link (l_rx k) (l_tx k) (rx_antennas k) (tx_antennas k) rx tx (l_carrier k) (l_bandwidth k).
