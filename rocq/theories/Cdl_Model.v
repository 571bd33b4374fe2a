(** Model of the clusters of 3GPP cluster delay lines: hermespy/channel/cdl/cluster_delay_lines.py
    (line numbers without file name) and the fixed profiles of hermespy/channel/cdl/cdl.py.

    Simplifications for the whole file
    - real instead of floating point numbers; random draws are arguments;
    - the large-scale parameters (1400-1452) are arguments: delay spread, Rice factor and shadow fading;
    - angles of rays are not modelled here; path losses are arguments. *)
From Coq Require Import Reals List.
From Verif Require Import Base Log_Model.
Import ListNotations.
Open Scope R_scope.

Definition sum (l : list R) : R := fold_right Rplus 0 l.
Definition speed_of_light : R := 299792458.

(** ** Delays (1493-1515) *)
(** np.sort *)
Fixpoint insert (x : R) (l : list R) : list R :=
  match l with [] => [x] | y :: r => if Rle_dec x y then x :: l else y :: insert x r end.
Definition sort (l : list R) : list R := fold_right insert [] l.
(** 1508-1510 *)
Definition rice_scale (k : R) : R := 775 / 1000 - 433 / 10000 * k + 2 / 10000 * k ^ 2 + 17 / 100000 * k ^ 3.
(** The raw, the scaled delays and the smallest one; [xs] are the uniform draws. *)
Definition cluster_delays (r_tau spread : R) (xs : list R) (los : bool) (k : R) : list R * list R * R :=
  let sorted := sort (map (fun x => - r_tau * spread * ln x) xs) in
  let minimal := hd 0 sorted in
  let raw := map (fun t => t - minimal) sorted in
  if los then (raw, map (fun t => t / rice_scale k) raw, 0) else (raw, raw, minimal).

(** ** Powers (1552-1578) *)
(** 1553-1561; [zs] are the draws of the cluster shadowing in dB. *)
Definition raw_powers (r_tau spread : R) (delays zs : list R) : list R :=
  map (fun p => exp (- fst p * (r_tau - 1) / (r_tau * spread)) * Rpower 10 (- (1 / 10) * snd p)) (combine delays zs).
(** 1563-1572 *)
Definition normalise (los : bool) (k : R) (l : list R) : list R :=
  let kl := db2lin k Power in
  if los then match map (fun p => p / ((1 + kl) * sum l)) l with [] => [] | p :: r => p + kl / (1 + kl) :: r end
  else map (fun p => p / sum l) l.
(** 1575-1576 *)
Definition keeps (first p : R) : bool := if Rle_dec (first * Rpower 10 (- 25 / 10)) p then true else false.
Definition eliminate (l : list R) : list R := filter (keeps (hd 0 l)) l.
Definition cluster_powers (r_tau spread : R) (delays zs : list R) (los : bool) (k : R) : list R :=
  eliminate (normalise los k (raw_powers r_tau spread delays zs)).

(** ** Absorption by oxygen *)
(** 1036-1057 *)
Definition oxygen_table : list (R * R) :=
  [(52, 0); (53, 1); (54, 2); (55, 4); (65, 66 / 10); (75, 97 / 10); (58, 126 / 10); (59, 146 / 10); (60, 15); (61, 146 / 10);
   (62, 143 / 10); (63, 105 / 10); (64, 68 / 10); (65, 39 / 10); (66, 19 / 10); (67, 1); (68, 0)].
(** np.interp for two points, in the order its implementation compares: beyond the last, before the first, in between. *)
Definition interp (x x0 x1 f0 f1 : R) : R :=
  if Rlt_dec x1 x then f1 else if Rlt_dec x x0 then f0 else if Req_EM_T x x1 then f1 else (f1 - f0) / (x1 - x0) * (x - x0) + f0.
(** 1983-1987: [0, :] and [1, :] are the first two rows of the table, each of two numbers. *)
Definition oxygen_factor (carrier : R) : R :=
  let row i := nth i oxygen_table (0, 0) in
  interp (carrier / 1000000000) (fst (row 0%nat)) (snd (row 0%nat)) (fst (row 1%nat)) (snd (row 1%nat)).
(** 1988-1992, for one cluster *)
Definition oxygen_loss (absorption : bool) (carrier distance minimal delay : R) : R :=
  if absorption then Rpower 10 (- (1 / 100) * oxygen_factor carrier * (distance + speed_of_light * (delay + minimal))) else 1.

(** ** Samples (1824-2013) *)
Inductive normalization := ZERO | TOF.      (* 63-72 *)
Record link := mkLink {
  i_r_tau : R; i_spread : R; i_rice : R; i_shadow_fading : R; i_los : bool;   (* of the large-scale state *)
  i_xs : list R; i_zs : list R;                                              (* draws of delays and shadowing *)
  i_pathloss : R; i_carrier : R; i_distance : R;
  i_gain : R; i_normalization : normalization; i_absorption : bool }.
(** The attributes of a sample (279-319) other than angles and polarizations. *)
Record sample := mkSample { s_los : bool; s_rice : R; s_offset : R; s_delays : list R; s_spread : R; s_powers : list R }.
(** 1842-2013; the delay offset of lines 1970-1973, the powers of lines 1978-1998. *)
Definition sample_of (i : link) : result sample :=
  if Req_EM_T (i_distance i) 0 then Raise RuntimeError
  else
    let '(raw, scaled, minimal) := cluster_delays (i_r_tau i) (i_spread i) (i_xs i) (i_los i) (i_rice i) in
    let powers := cluster_powers (i_r_tau i) (i_spread i) raw (i_zs i) (i_los i) (i_rice i) in
    let delays := firstn (length powers) scaled in
    let scale := db2lin (- i_pathloss i) Power in
    Ok (mkSample (i_los i) (i_rice i)
          (match i_normalization i with TOF => i_distance i / speed_of_light | ZERO => 0 end)
          delays (i_spread i)
          (map (fun q => snd q * scale * (i_gain i * oxygen_loss (i_absorption i) (i_carrier i) (i_distance i) minimal (fst q)) ^ 2) (combine delays powers))).
(** 405-407 *)
Definition energy_scale (s : sample) : R := sum (s_powers s).

(** ** Angular spread (675-682); entries are pairs of an angle and a power. *)
Definition resultant (l : list (R * R)) : R :=
  sqrt ((sum (map (fun q => cos (fst q) * snd q) l)) ^ 2 + (sum (map (fun q => sin (fst q) * snd q) l)) ^ 2) / sum (map snd l).
Definition angular_spread (l : list (R * R)) : R := sqrt (- 2 * ln (resultant l)).

(** ** Fixed profiles: cdl.py *)
Inductive profile := CDL_A | CDL_B | CDL_C | CDL_D | CDL_E.
(** cdl.py:35-167: normalised delays and powers in dB *)
Definition profile_table (t : profile) : list (R * R) :=
  match t with
  | CDL_A => (* 39-66 *) [(0, - (134 / 10)); (3819 / 10000, 0); (4025 / 10000, - (22 / 10)); (5868 / 10000, - 4); (461 / 1000, - 6); (5375 / 10000, - (82 / 10)); (6708 / 10000, - (99 / 10)); (575 / 1000, - (105 / 10)); (7618 / 10000, - (75 / 10)); (15375 / 10000, - (159 / 10)); (18978 / 10000, - (66 / 10)); (22242 / 10000, - (167 / 10)); (21718 / 10000, - (124 / 10)); (24942 / 10000, - (152 / 10)); (25119 / 10000, - (108 / 10)); (30582 / 10000, - (113 / 10)); (4081 / 1000, - (127 / 10)); (44579 / 10000, - (162 / 10)); (45695 / 10000, - (183 / 10)); (47966 / 10000, - (189 / 10)); (50066 / 10000, - (166 / 10)); (53043 / 10000, - (199 / 10)); (96586 / 10000, - (297 / 10))]
  | CDL_B => (* 68-95 *) [(0, 0); (1072 / 10000, - (22 / 10)); (2155 / 10000, - 4); (2095 / 10000, - (32 / 10)); (287 / 1000, - (98 / 10)); (2986 / 10000, - (12 / 10)); (3752 / 10000, - (34 / 10)); (5055 / 10000, - (52 / 10)); (3681 / 10000, - (76 / 10)); (3697 / 10000, - 3); (57 / 100, - (89 / 10)); (5283 / 10000, - 9); (11021 / 10000, - (48 / 10)); (12756 / 10000, - (57 / 10)); (15474 / 10000, - (75 / 10)); (17842 / 10000, - (19 / 10)); (20169 / 10000, - (76 / 10)); (28294 / 10000, - (122 / 10)); (30219 / 10000, - (98 / 10)); (36187 / 10000, - (114 / 10)); (41067 / 10000, - (149 / 10)); (4279 / 1000, - (92 / 10)); (47834 / 10000, - (113 / 10))]
  | CDL_C => (* 97-125 *) [(0, - (44 / 10)); (2099 / 10000, - (12 / 10)); (2219 / 10000, - (35 / 10)); (2329 / 10000, - (52 / 10)); (2176 / 10000, - (25 / 10)); (6366 / 10000, 0); (6448 / 10000, - (22 / 10)); (656 / 1000, - (39 / 10)); (6584 / 10000, - (74 / 10)); (7935 / 10000, - (71 / 10)); (8213 / 10000, - (107 / 10)); (9336 / 10000, - (111 / 10)); (12285 / 10000, - (51 / 10)); (13083 / 10000, - (68 / 10)); (21704 / 10000, - (87 / 10)); (27105 / 10000, - (132 / 10)); (42589 / 10000, - (139 / 10)); (46003 / 10000, - (139 / 10)); (54902 / 10000, - (158 / 10)); (56077 / 10000, - (171 / 10)); (63065 / 10000, - 16); (66374 / 10000, - (157 / 10)); (70427 / 10000, - (216 / 10)); (86523 / 10000, - (228 / 10))]
  | CDL_D => (* 127-145 *) [(0, - (2 / 10)); (0, - (135 / 10)); (35 / 1000, - (188 / 10)); (612 / 1000, - 21); (1363 / 1000, - (228 / 10)); (1405 / 1000, - (179 / 10)); (1804 / 1000, - (201 / 10)); (2596 / 1000, - (219 / 10)); (1775 / 1000, - (229 / 10)); (4042 / 1000, - (278 / 10)); (7937 / 1000, - (236 / 10)); (9424 / 1000, - (248 / 10)); (9708 / 1000, - 30); (12525 / 1000, - (277 / 10))]
  | CDL_E => (* 147-166 *) [(0, - (3 / 100)); (0, - (2203 / 100)); (5133 / 10000, - (158 / 10)); (544 / 1000, - (181 / 10)); (563 / 1000, - (198 / 10)); (544 / 1000, - (229 / 10)); (7112 / 10000, - (224 / 10)); (19092 / 10000, - (186 / 10)); (19293 / 10000, - (208 / 10)); (19589 / 10000, - (226 / 10)); (26426 / 10000, - (223 / 10)); (37136 / 10000, - (256 / 10)); (54524 / 10000, - (202 / 10)); (120034 / 10000, - (298 / 10)); (206419 / 10000, - (292 / 10))]
  end.
(** cdl.py:170-178: cross-polarization ratios in dB and whether there is a line of sight *)
Definition profile_xpr (t : profile) : R := match t with CDL_A => 10 | CDL_B => 8 | CDL_C => 7 | CDL_D => 11 | CDL_E => 8 end.
Definition profile_los (t : profile) : bool := match t with CDL_D | CDL_E => true | _ => false end.
(** cdl.py:222-299; the gain of the realization (212) is not used *)
Definition profile_sample (t : profile) (rms_delay rayleigh_factor gain : R) : sample :=
  mkSample (profile_los t) rayleigh_factor 0 (map (fun q => rms_delay * fst q) (profile_table t)) rms_delay
           (map (fun q => Rpower 10 (snd q / 10)) (profile_table t)).
(** Factors of the cross-polarized entries of polarization transformations: cdl.py:279 and 1953-1960 for a draw [x] in dB *)
Definition profile_cross (t : profile) : R := Rpower 10 (profile_xpr t / 10).
Definition scenario_cross (x : R) : R := Rpower 10 (- (5 / 100) * x).
