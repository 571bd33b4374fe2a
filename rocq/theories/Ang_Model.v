(** Model of the angles of the rays of 3GPP cluster delay lines: ClusterDelayLineRealization of
    hermespy/channel/cdl/cluster_delay_lines.py (line numbers without file name).

    Simplifications for the whole file
    - exact real arithmetic; two-dimensional arrays are lists of rows, one row per cluster;
    - the random numbers (signs, variations, couplings) and the table entries of the scenario (spreads of clusters, mean and offset of
      the zenith of departure) are arguments; angles are degrees until the very end;
    - powers are positive, as C109 shows; the maximum of none, which raises, does not occur since the first cluster is never cut off. *)
From Coq Require Import List Reals Bool.
From Verif Require Import Base Rot_Model.
Import ListNotations.
Open Scope R_scope.

(** 970-1030 *)
Definition azimuth_scales : list (R * R) :=
  [(4, 779 / 1000); (5, 86 / 100); (8, 1018 / 1000); (10, 109 / 100); (11, 1123 / 1000); (12, 1146 / 1000); (14, 119 / 100); (15, 1211 / 1000);
   (16, 1226 / 1000); (19, 1273 / 1000); (20, 1289 / 1000); (25, 1358 / 1000)].
Definition zenith_scales : list (R * R) :=
  [(8, 889 / 1000); (10, 957 / 1000); (11, 1031 / 1000); (12, 1104 / 1000); (15, 11088 / 10000); (19, 1184 / 1000); (20, 1178 / 1000); (25, 1282 / 1000)].
Definition half_offsets : list R :=
  [447 / 10000; 1413 / 10000; 2492 / 10000; 3715 / 10000; 5129 / 10000; 6797 / 10000; 8844 / 10000; 11481 / 10000; 15195 / 10000; 21551 / 10000].
Definition offsets : list R := flat_map (fun o => [o; - o]) half_offsets.

(** The row of a table at np.argmin(np.abs(table[:, 0] - n)), the first minimum (1623-1624, 1703-1706, 1781-1784) *)
Fixpoint closest (best : R * R) (n : R) (t : list (R * R)) : R * R :=
  match t with
  | [] => best
  | e :: r => closest (if Rlt_dec (Rabs (fst e - n)) (Rabs (fst best - n)) then e else best) n r
  end.
Definition table_scale (t : list (R * R)) (n : nat) : R :=
  match t with [] => 0 | e :: r => snd (closest e (INR n) r) end.
(** 1627-1630, 1707-1710 *)
Definition azimuth_los_factor (k : R) : R := 11035 / 10000 - 28 / 1000 * k - 2 / 1000 * k ^ 2 + 1 / 10000 * k ^ 3.
Definition zenith_los_factor (k : R) : R := 13086 / 10000 + 339 / 10000 * k - 77 / 10000 * k ^ 2 + 2 / 10000 * k ^ 3.
Definition azimuth_scale (los : bool) (k : R) (n : nat) : R := table_scale azimuth_scales n * (if los then azimuth_los_factor k else 1).
Definition zenith_scale (los : bool) (k : R) (n : nat) : R := table_scale zenith_scales n * (if los then zenith_los_factor k else 1).

(** np.max of a list that is not empty *)
Definition peak (l : list R) : R := match l with [] => 0 | x :: r => fold_left Rmax r x end.
(** What all clusters of a link share: powers, signs and standard normal variations (slices up to the number of clusters) *)
Record clusters := mkClusters { powers : list R; signs : list R; variations : list R }.
(** [sign * angle + variation] for each cluster (1636-1643, 1720-1726, 1798-1807), shifted to the line of sight (1645-1651, 1728-1733, 1809-1814) *)
Definition centres (los : bool) (angle : R -> R) (spread offset towards : R) (c : clusters) : list R :=
  let raw := map (fun q => snd (fst q) * angle (fst (fst q)) + spread / 7 * snd q + offset) (combine (combine (powers c) (signs c)) (variations c)) in
  map (fun a => a + (if los then towards - nth 0 raw 0 else towards)) raw.
(** 1632-1634 *)
Definition azimuth_angle (los : bool) (k spread : R) (c : clusters) (p : R) : R :=
  2 * spread / (14 / 10) / azimuth_scale los k (length (powers c)) * sqrt (- ln (p / peak (powers c))).
(** 1714-1716, 1792-1794 *)
Definition zenith_angle (los : bool) (k spread : R) (c : clusters) (p : R) : R :=
  - spread * ln (p / peak (powers c)) / zenith_scale los k (length (powers c)).
(** The rays of a cluster (1653-1662, 1735-1740, 1816-1822) *)
Definition spread_out (cluster_spread : R) (centre : R) : list R := map (fun o => centre + cluster_spread * o) offsets.
(** _ray_azimuth_angles 1580-1662 *)
Definition ray_azimuth (los : bool) (k spread cluster_spread towards : R) (c : clusters) : list (list R) :=
  map (spread_out cluster_spread) (centres los (azimuth_angle los k spread c) spread 0 towards c).
(** _ray_zoa 1664-1740 *)
Definition ray_zoa (los : bool) (k spread cluster_spread towards : R) (c : clusters) : list (list R) :=
  map (spread_out cluster_spread) (centres los (zenith_angle los k spread c) spread 0 towards c).
(** _ray_zod 1742-1822 *)
Definition ray_zod (los : bool) (k spread mean offset towards : R) (c : clusters) : list (list R) :=
  map (spread_out (3 / 8 * Rpower 10 mean)) (centres los (zenith_angle los k spread c) spread offset towards c).
(** np.take_along_axis (1938-1949): row i of the result has the entries of row i of the array at the indices in row i; an index beyond the row,
    which raises, does not occur: the indices are permutations (2253-2263) *)
Definition take (a : list (list R)) (indices : list (list nat)) : list (list R) :=
  map (fun q => map (fun j => nth j (fst q) 0) (snd q)) (combine a indices).

(** The large-scale parameters (1440-1452): 10 ** S, capped *)
Definition azimuth_spread (mean std x : R) : R := Rmin (Rpower 10 (mean + std * x)) 104.
Definition zenith_spread (mean std x : R) : R := Rmin (Rpower 10 (mean + std * x)) 52.

(** What the scenario and the random generators contribute to a link *)
Record draws := mkDraws { line_of_sight : bool; rice : R; asd : R; asa : R; zsa : R; zsd : R; c_asd : R; c_asa : R; c_zsa : R; zod_mean : R;
  zod_offset : R; azimuths : clusters; zeniths : clusters; coupling_aoa : list (list nat); coupling_zoa : list (list nat);
  coupling_aod : list (list nat); coupling_zod : list (list nat) }.
Record rays := mkRays { r_aoa : list (list R); r_zoa : list (list R); r_aod : list (list R); r_zod : list (list R) }.
Definition radians (a : list (list R)) : list (list R) := map (map (fun x => PI / 180 * x)) a.
(** 1867-1949 *)
Definition ray_angles (d : draws) (tx rx : transformation) : result rays :=
  do t <- transform_direction (invert tx) (vsub (translation rx) (translation tx)) true;
  do r <- transform_direction (invert rx) (vsub (translation tx) (translation rx)) true;
  let '(ta, tz) := to_spherical t in
  let '(ra, rz) := to_spherical r in
  let los := line_of_sight d in let k := rice d in
  Ok (mkRays
    (take (radians (ray_azimuth los k (asa d) (c_asa d) (180 * ra / PI) (azimuths d))) (coupling_aoa d))
    (take (radians (ray_zoa los k (zsa d) (c_zsa d) (180 * rz / PI) (zeniths d))) (coupling_zoa d))
    (take (radians (ray_azimuth los k (asd d) (c_asd d) (180 * ta / PI) (azimuths d))) (coupling_aod d))
    (take (radians (ray_zod los k (zsd d) (zod_mean d) (zod_offset d) (180 * tz / PI) (zeniths d))) (coupling_zod d))).
