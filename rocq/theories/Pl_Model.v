(** Model of the path losses and of the line of sight decisions of the 3GPP scenarios (hermespy/channel/cdl/).

    Simplifications for the whole file
    - exact real arithmetic; 1e-9 and 1e-8 are powers of ten;
    - math.log10 and math.log raise ValueError for numbers that are not positive; np.log10 (rural macrocells) does not, it is only
      looked at for positive numbers;
    - the parameters of an indoor factory for which the clutter is as high as the lower device, where a float is divided by zero, are not modelled. *)
From Coq Require Import List Reals Bool.
From Verif Require Import Base Rot_Model.
Import ListNotations.
Open Scope R_scope.

(** math.log10 *)
Definition log10 (v : R) : R := ln v / ln 10.
Definition mlog (v : R) : result R := if Rle_dec v 0 then Raise ValueError else Ok (log10 v).

(** LOSState, O2IState (cluster_delay_lines.py:775-815); indoor scenarios only know the first two. *)
Inductive los_state := LOS | NLOS | O2I.
(** OfficeType (indoor_office.py:38-45), FactoryType (indoor_factory.py:33-43) *)
Inductive office := MIXED | OPEN.
Inductive factory := SL | SH | DL | DH | HH.
Inductive scenario := Office (t : office) | Factory (t : factory) (clutter_height : R) | Micro | Macro | Rural.

(** ClusterDelayLineSampleParameters (cluster_delay_lines.py:822-892) *)
Record params := mkParams { fc : R; d3 : R; d2 : R; base_height : R; terminal_height : R }.
(** cluster_delay_lines.py:1827-1839 *)
Definition parameters (carrier : R) (a b : vec) : params :=
  mkParams carrier (norm (vsub a b)) (sqrt ((vx a - vx b) ^ 2 + (vy a - vy b) ^ 2)) (Rmax (vz a) (vz b)) (Rmin (vz a) (vz b)).

Definition ghz (p : params) : R := fc p / 10 ^ 9.
(** [c + k * log10(d3) + q * log10(f)], the common shape *)
Definition curve (p : params) (c k q : R) : result R := do a <- mlog (d3 p); do b <- mlog (ghz p); Ok (c + k * a + q * b).
(** max(a, b) for the state without line of sight *)
Definition upper (a b : result R) : result R := do x <- a; do y <- b; Ok (Rmax x y).

(** indoor_office.py:107-122 *)
Definition office_loss (s : los_state) (p : params) : result R :=
  let los := curve p (324 / 10) (173 / 10) 20 in
  match s with LOS => los | _ => upper los (curve p (173 / 10) (383 / 10) (249 / 10)) end.
(** indoor_factory.py:135-173 *)
Definition factory_loss (t : factory) (s : los_state) (p : params) : result R :=
  let los := curve p (3184 / 100) (215 / 10) 19 in
  match s with
  | LOS => los
  | _ => upper los (match t with
                    | SL => curve p 33 (255 / 10) 20
                    | DL => curve p (186 / 10) (357 / 10) 20
                    | SH => curve p (324 / 10) 23 20
                    | _ => curve p (3363 / 100) (219 / 10) 20
                    end)
  end.
(** urban_microcells.py:94-100, urban_macrocells.py:92-98 *)
Definition urban_terminal (p : params) : R := Rmax (3 / 2) (Rmin (45 / 2) (terminal_height p)).
Definition breakpoint (h_BS : R) (p : params) : R := 4 * (h_BS - 1) * (urban_terminal p - 1) * fc p / 10 ^ 8 / 3.
(** urban_microcells.py:102-114, urban_macrocells.py:100-113 *)
Definition urban_los (h_BS c near far : R) (p : params) : result R :=
  let bp := breakpoint h_BS p in
  if Rlt_dec (d2 p) bp then curve p c near 20
  else do a <- curve p c 40 20; do b <- mlog (bp ^ 2 + (h_BS - urban_terminal p) ^ 2); Ok (a - far * b).
(** urban_microcells.py:87-125 *)
Definition micro_loss (s : los_state) (p : params) : result R :=
  let los := urban_los 10 (324 / 10) 21 (95 / 10) p in
  match s with
  | O2I => Ok 0
  | LOS => los
  | NLOS => upper los (do a <- curve p (224 / 10) (353 / 10) (213 / 10); Ok (a - 3 / 10 * (urban_terminal p - 3 / 2)))
  end.
(** urban_macrocells.py:87-124 *)
Definition macro_loss (s : los_state) (p : params) : result R :=
  let los := urban_los 25 28 22 9 p in
  match s with
  | O2I => Ok 0
  | LOS => los
  | NLOS => upper los (do a <- curve p (1354 / 100) (3908 / 100) 20; Ok (a - 6 / 10 * (urban_terminal p - 3 / 2)))
  end.
(** rural_macrocells.py:92-103 with the distance as argument; [5 ** 1.72] *)
Definition rural_base (p : params) : R := Rmin 150 (Rmax 5 (base_height p)).
Definition rural_terminal (p : params) : R := Rmin 10 (Rmax 1 (terminal_height p)).
Definition h_power : R := Rpower 5 (172 / 100).
Definition rural_1 (p : params) (d : R) : R :=
  20 * log10 (40 * PI * d * ghz p / 3) + Rmin (3 / 100 * h_power) 10 * log10 d - Rmin (44 / 1000 * h_power) (1477 / 100) + 2 / 1000 * log10 5 * d.
(** 105-111 *)
Definition rural_breakpoint (p : params) : R := 2 * PI * rural_base p * rural_terminal p * fc p / 10 ^ 8 / 3.
Definition rural_los (p : params) : R :=
  if Rle_dec (d2 p) (rural_breakpoint p) then rural_1 p (d3 p) else rural_1 p (d3 p) + 40 * log10 (d3 p / rural_breakpoint p).
(** 87-126 *)
Definition rural_loss (s : los_state) (p : params) : R :=
  match s with
  | O2I => 0
  | LOS => rural_los p
  | NLOS => Rmax (rural_los p)
      (16104 / 100 - 71 / 10 * log10 20 + 75 / 10 * log10 5 - (2437 / 100 - 37 / 10 * (5 / rural_base p) ^ 2) * log10 (rural_base p)
       + (4342 / 100 - 31 / 10 * log10 (rural_base p)) * (log10 (d3 p) - 3) + 20 * log10 (ghz p)
       - (32 / 10 * log10 (1175 / 100 * rural_terminal p) ^ 2 - 497 / 100))
  end.
Definition pathloss (c : scenario) (s : los_state) (p : params) : result R :=
  match c with
  | Office _ => office_loss s p
  | Factory t _ => factory_loss t s p
  | Micro => micro_loss s p
  | Macro => macro_loss s p
  | Rural => Ok (rural_loss s p)
  end.

(** FactoryType (indoor_factory.py:39-43): clutter size and density *)
Definition clutter (t : factory) : R * R :=
  match t with SL | SH => (10, 2 / 10) | DL | DH => (2, 6 / 10) | HH => (5, 0) end.
(** indoor_factory.py:189-201 *)
Definition subspace (t : factory) (clutter_height : R) (p : params) : R :=
  let '(size, density) := clutter t in
  match t with
  | SL | DL => - size / ln (1 - density)
  | _ => - size * (base_height p - terminal_height p) / (ln (1 - density) * (clutter_height - terminal_height p))
  end.
(** Probability of a line of sight: indoor_office.py:134-147, indoor_factory.py:186-203, urban_microcells.py:138-140,
    urban_macrocells.py:137-139, rural_macrocells.py:140 *)
Definition urban_probability (d : R) : R := 18 / d + exp (- d / 36) * (1 - 18 / d).
Definition probability (c : scenario) (p : params) : R :=
  match c with
  | Office MIXED => if Rle_dec (d2 p) (12 / 10) then 1
                    else if Rlt_dec (d2 p) (65 / 10) then exp (- (d2 p - 12 / 10) / (47 / 10))
                    else exp (- (d2 p - 65 / 10) / (326 / 10)) * (32 / 100)
  | Office OPEN => if Rle_dec (d2 p) 5 then 1
                   else if Rle_dec (d2 p) 49 then exp (- (d2 p - 5) / (708 / 10))
                   else exp (- (d2 p - 49) / (2117 / 10)) * (54 / 100)
  | Factory t h => let k := subspace t h p in if Rlt_dec 0 k then exp (- d2 p / k) else 0
  | Micro | Macro => urban_probability (d3 p)
  | Rural => exp (- (d2 p - 10) / 1000)
  end.
(** The decision for a sample of the state variable (indoor_office.py:149-152, indoor_factory.py:186-187, 204, urban_microcells.py:142,
    urban_macrocells.py:141-144, rural_macrocells.py:142-145) *)
Definition decide (c : scenario) (variable : R) (p : params) : los_state :=
  match c with
  | Factory HH _ => LOS
  | _ => if Rlt_dec variable (probability c p) then LOS else NLOS
  end.
(** db2lin(-pathloss) (cluster_delay_lines.py:1978) of a link: 1824-1858. [expected] is the expected state of the channel (None draws one),
    [variable] the sample of the state variable for the link. *)
Definition link (c : scenario) (expected : option los_state) (variable carrier : R) (tx rx : vec) : result (los_state * R) :=
  let p := parameters carrier tx rx in
  if Req_EM_T (d3 p) 0 then Raise RuntimeError
  else let s := match expected with Some e => e | None => decide c variable p end in
       do l <- pathloss c s p; Ok (s, Rpower 10 (- l / 10)).
