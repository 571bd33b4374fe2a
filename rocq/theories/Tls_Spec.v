(** Vocabulary for tiles and batch jobs *)
From Coq Require Import Ascii String List Arith ZArith Bool.
From Verif Require Import Base Tls_Model.
Local Open Scope nat_scope.

(** A tile within another, and tiles without a common point in their interior *)
Definition inside (a b : rect) : Prop :=
  (left_of b <= left_of a /\ left_of a + width a <= left_of b + width b /\ top_of b <= top_of a /\ top_of a + height a <= top_of b + height b)%Z.
Definition apart (a b : rect) : Prop :=
  (left_of a + width a <= left_of b \/ left_of b + width b <= left_of a \/ top_of a + height a <= top_of b \/ top_of b + height b <= top_of a)%Z.
(** No dollar sign in a string *)
Fixpoint no_dollar (s : string) : Prop := match s with EmptyString => True | String c r => c <> "$"%char /\ no_dollar r end.
(** The intended job: its name, its number of nodes and the script it runs *)
Definition job (name nodes script : string) : string := (
  "#!/bin/bash
#SBATCH --job-name=" ++
  name ++
  "
#SBATCH --nodes=" ++
  nodes ++
  "
#SBATCH --exclusive
#SBATCH --ntasks=" ++
  nodes ++
  "

# Getting the node names
nodes=$(scontrol show hostnames ""$SLURM_JOB_NODELIST"")
nodes_array=($nodes)

head_node=${nodes_array[0]}
head_node_ip=$(srun --nodes=1 --ntasks=1 -w ""$head_node"" hostname --ip-address)
head_node_port=6379

# Spinning up the head node
echo ""Starting ray head at $head_node""
srun --disable-status --kill-on-bad-exit=0 --nodes=1 --ntasks=1 -w ""$head_node"" ray start --head --node-ip-address=""$head_node_ip"" --port=$head_node_port --block &

# Spinning up worker nodes
worker_num=$((SLURM_JOB_NUM_NODES - 1))
for ((i = 1; i <= worker_num; i++)); do
    node_i=${nodes_array[$i]}
    echo ""Starting ray worker #$i at $node_i""
    srun --disable-status --kill-on-bad-exit=0 --nodes=1 --ntasks=1 -w ""$node_i"" ray start --address ""$head_node_ip:$head_node_port"" --block &
done

# Running the original script
RAY_ADDRESS=""$head_node_ip:$head_node_port"" python " ++
  script ++
  "

# Cleanup after execution, i.e. stop the worker nodes
for ((i = SLURM_JOB_NUM_NODES - 1; i >= 0; i--)); do
    node_i=${nodes_array[$i]}
    echo ""Stopping ray at $node_i""
    srun --disable-status --nodes=1 --ntasks=1 -w ""$node_i"" ray stop --force &
done
")%string.
