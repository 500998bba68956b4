(** * `solve_relaxation` in a build with debug assertions *)
From Verif Require Export DebugSolve Runs.

(** the assertions of the two representations of the basis inverse *)
Definition debug_ops (r : representation) : DOps (ops r) :=
  match r with UseLU => LU_debug | UseRows => BIR_debug end.
(** the assertions of the four pivot rules *)
Definition debug_rule (n : rule_name) (O : BIOps) (D : DOps O) : DRule O (rule n O) :=
  match n with
  | FirstProfitable => first_profitable_d O
  | FirstProfitableWithMemory => first_profitable_memory_d O
  | DescentAlongVariable => steepest_variable_d O
  | DescentAlongObjective => steepest_objective_d O D
  end.
(** [run] with `debug_assertions` on: an assertion that fails is a panic *)
Definition run_debug (r : representation) (n : rule_name) (fuel : nat) (p : provider) : res opt_result :=
  solve_d (ops r) (debug_ops r) (rule n (ops r)) (debug_rule n (ops r) (debug_ops r)) fuel p.
