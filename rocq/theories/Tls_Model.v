(** Models the tools of hermespy/tools: tiling of figures (tile.py) and submission of batch jobs (shermes.py).

    Simplifications for the whole file
    - screens, figures and grids are measured in whole numbers that are not negative; the quotients in tile.py:107-113 are exact;
    - strings are lists of characters, and str.replace scans from the left;
    - parsing of the command line and the file system are arguments: the script name, the printed number of nodes, whether sbatch exists. *)
From Coq Require Import Ascii String List Arith ZArith Bool.
Import ListNotations.
From Verif Require Import Base.
Local Open Scope nat_scope.

(** ** Figures (tile.py) *)
(** tile.py:110, np.round of the quotient of two whole numbers *)
Definition rounded (a b : nat) : nat :=
  let q := a / b in let r := a mod b in
  if 2 * r <? b then q else if b <? 2 * r then q + 1 else if Nat.even q then q else q + 1.
(** tile.py:107-110; [aspect] is the grid at the start *)
Fixpoint grow (fuel figures : nat) (aspect : nat * nat) (cols rows : nat) : nat * nat :=
  match fuel with
  | O => (cols, rows)
  | S f => if cols * rows <? figures then grow f figures aspect (cols + 1) (Nat.max (rounded ((cols + 1) * snd aspect) (fst aspect)) rows) else (cols, rows)
  end.
Record rect := Rect { left_of : Z; top_of : Z; width : Z; height : Z }.
(** tile.py:94-118; the columns grow by one with each iteration, so there are at most as many iterations as figures *)
Definition tile_figures (cols rows : Z) (screen : rect) (offsets : Z * Z) (figures : nat) : result (list rect) :=
  if (negb (0 <? cols) || negb (0 <? rows))%Z%bool then Raise AssertionError
  else
    let c0 := Z.to_nat cols in let r0 := Z.to_nat rows in
    let g := grow figures figures (c0, r0) c0 r0 in
    let sx := (left_of screen + fst offsets)%Z in
    let sy := (top_of screen + snd offsets)%Z in
    let w := (width screen / Z.of_nat (fst g))%Z in
    let h := (height screen / Z.of_nat (snd g))%Z in
    Ok (map (fun i => Rect (Z.of_nat (i mod fst g) * (w + fst offsets) + sx) (Z.of_nat (i / fst g) * (h + snd offsets) + sy) w h) (seq 0 figures)).

(** ** Batch jobs (shermes.py) *)
(** str.replace; [skip] characters of a replaced key are still to be passed over *)
Fixpoint replace_from (key value : string) (skip : nat) (s : string) : string :=
  match s with
  | EmptyString => EmptyString
  | String c r =>
      match skip with
      | S k => replace_from key value k r
      | O => if prefix key s then (value ++ replace_from key value (String.length key - 1) r)%string else String c (replace_from key value 0 r)
      end
  end.
Definition replace (key value s : string) : string := replace_from key value 0 s.
(** shermes.py:20-55 *)
Definition sbatch : string :=
"#!/bin/bash
#SBATCH --job-name=$JOB_NAME
#SBATCH --nodes=$NUM_NODES
#SBATCH --exclusive
#SBATCH --ntasks=$NUM_NODES

# Getting the node names
nodes=$(scontrol show hostnames ""$SLURM_JOB_NODELIST"")
nodes_array=($nodes)

head_node=${nodes_array[0]}
head_node_ip=$(srun --nodes=1 --ntasks=1 -w ""$head_node"" hostname --ip-address)
head_node_port=6379

# Spinning up the head node
echo ""Starting ray head at $head_node""
srun --disable-status --kill-on-bad-exit=0 --nodes=1 --ntasks=1 -w ""$head_node"" ray start --head --node-ip-address=""$head_node_ip"" --port=$head_node_port --block &

# Spinning up worker nodes
worker_num=$((SLURM_JOB_NUM_NODES - 1))
for ((i = 1; i <= worker_num; i++)); do
    node_i=${nodes_array[$i]}
    echo ""Starting ray worker #$i at $node_i""
    srun --disable-status --kill-on-bad-exit=0 --nodes=1 --ntasks=1 -w ""$node_i"" ray start --address ""$head_node_ip:$head_node_port"" --block &
done

# Running the original script
RAY_ADDRESS=""$head_node_ip:$head_node_port"" python $SCRIPT

# Cleanup after execution, i.e. stop the worker nodes
for ((i = SLURM_JOB_NUM_NODES - 1; i >= 0; i--)); do
    node_i=${nodes_array[$i]}
    echo ""Stopping ray at $node_i""
    srun --disable-status --nodes=1 --ntasks=1 -w ""$node_i"" ray stop --force &
done
"%string.
(** shermes.py:101-109 *)
Definition batch_script (script nodes : string) : string :=
  replace "$SCRIPT" script (replace "$NUM_NODES" nodes (replace "$JOB_NAME" script sbatch)).
(** shermes.py:94-120; what is handed to sbatch, if anything *)
Definition submitted (skip_checks found : bool) (script nodes : string) : option string :=
  if (negb skip_checks && negb found)%bool then None else Some (batch_script script nodes).
