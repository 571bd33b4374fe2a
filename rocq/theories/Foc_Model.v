(** Beams towards devices: hermespy/simulation/beamforming.py (DeviceFocus) and hermespy/beamforming/operators.py (BeamformingTransmitter,
    BeamformingReceiver), with the conventional and the Capon beamformer of Beam_Model.
    Simplifications: trajectories are functions of time; signals have blocks, a sampling rate and a carrier, their other attributes are copied. *)
From Coq Require Import List Reals.
From Coquelicot Require Import Complex.
From Verif Require Import Base Cplx Rot_Model Ant_Model Beam_Model.
Import ListNotations.
Open Scope R_scope.

(** core/transformation.py 107-123 with normalize=True *)
Definition normalized (v : vec) : result vec := if Req_EM_T (norm v) 0 then Raise ValueError else Ok (vscale (/ norm v) v).
(** simulation/beamforming.py 54-59: [own] is the position of the focusing device at time [t], [track] the trajectory of the focused one *)
Definition device_angles (own : vec) (track : R -> vec) (t : R) : result (R * R) :=
  do d <- normalized (vsub (track t) own); Ok (to_spherical d).
(** beamforming/beamformer.py 329-332, 579-582: the angles become those of the only focus point *)
Definition towards {A} (own : vec) (track : R -> vec) (t : R) (k : list focus -> result A) : result A :=
  do a <- device_angles own track t; k [Spherical (fst a) (snd a)].

Record signal := mkSignal { blocks : list block; rate : R; carrier : R }.
Definition num_streams (s : signal) : nat := match blocks s with [] => 0%nat | b :: _ => length b end.
(** beamforming/operators.py 69-79 with core/operators.py 145-152: [fs] and [fc] are the sampling rate and carrier of the device *)
Definition beam_transmit (arr : array) (fs fc : R) (f : list focus) (s : signal) : result signal :=
  do x <- conventional_transmit arr fc f (num_streams s) (blocks s); Ok (mkSignal x fs (carrier s)).
(** 135-147 with core/operators.py 216-217 *)
Definition beam_receive (arr : array) (fc : R) (f : list focus) (s : signal) : result signal :=
  do x <- conventional_receive arr fc f (blocks s); Ok (mkSignal x (rate s) (carrier s)).
Definition capon_beam_receive inv loading (arr : array) (fc : R) (f : list focus) (s : signal) : result signal :=
  do x <- capon_receive inv loading arr fc f (blocks s); Ok (mkSignal x (rate s) (carrier s)).
