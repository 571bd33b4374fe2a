(** Vocabulary for antennas: field vectors, powers and positions in the scene. *)
From Coq Require Import List Reals ZArith.
From Coquelicot Require Import Complex.
From Verif Require Import Base Cplx Rot_Model Rot_Spec Ant_Model.
Import ListNotations.
Open Scope R_scope.

(** The electric field vector in space which two polarisation components describe for a direction *)
Definition field (direction : vec) (c : R * R) : vec :=
  let '(azimuth, zenith) := to_spherical direction in
  vadd (vscale (fst c) (V (cos zenith * cos azimuth) (cos zenith * sin azimuth) (- sin zenith)))
       (vscale (snd c) (V (- sin azimuth) (cos azimuth) 0)).
Definition power (c : R * R) : R := fst c ^ 2 + snd c ^ 2.
(** What an antenna radiates towards a direction of its own coordinate system *)
Definition pattern (k : kind) (v : vec) : R * R := let '(azimuth, zenith) := to_spherical v in local_characteristics k azimuth zenith.
(** Where an antenna of an array is in the scene *)
Definition scene_position (arr : array) (a : antenna) : vec := vadd (mv (rotation (base arr)) (translation (apose a))) (translation (base arr)).
Definition transmits (a : antenna) : Prop := amode a = TX \/ amode a = DUPLEX.
Definition receives (a : antenna) : Prop := amode a = RX \/ amode a = DUPLEX.
(** The antennas a request for a mode refers to, in the order of the array *)
Inductive chosen : mode -> list antenna -> list antenna -> Prop :=
| chosen_nil m : chosen m [] []
| chosen_take m a l r : match m with TX => transmits a | RX => receives a | DUPLEX => True end -> chosen m l r -> chosen m (a :: l) (a :: r)
| chosen_skip m a l r : match m with TX => ~ transmits a | RX => ~ receives a | DUPLEX => False end -> chosen m l r -> chosen m (a :: l) r.
(** Changes of a uniform array *)
Inductive uniform_change := Spacing (v : R) | Dimensions (v : list Z).
Definition change (u : uniform) (c : uniform_change) : result uniform :=
  match c with Spacing v => set_spacing u v | Dimensions v => set_dimensions u v end.
(** An array after changes, refused ones leaving it as it was *)
Definition changed (u : uniform) (cs : list uniform_change) : uniform :=
  fold_left (fun u c => match change u c with Ok v => v | Raise _ => u end) cs u.
(** The spacing and the dimensions a user has asked for last: spacings must be positive, missing dimensions are one *)
Definition request (s : R * (Z * Z * Z)) (c : uniform_change) : R * (Z * Z * Z) :=
  match c with
  | Spacing v => if Rlt_dec 0 v then (v, snd s) else s
  | Dimensions v => match v with [a] => (fst s, (a, 1, 1)%Z) | [a; b] => (fst s, (a, b, 1)%Z) | [a; b; c] => (fst s, (a, b, c)) | _ => s end
  end.
Definition requested (s : R * (Z * Z * Z)) (cs : list uniform_change) : R * (Z * Z * Z) := fold_left request cs s.
Definition positions (u : uniform) : list vec := map (fun a => translation (apose a)) (u_antennas u).
