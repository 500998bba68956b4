(** * From a general form to its solution: model of the calls a user makes

    /repo/tests/netlib/mod.rs:57-71 (and /repo/README.md): standardize, derive_matrix_data,
    solve_relaxation, reconstruct_solution, compute_full_solution_with_reduced_solution.  Presolving is a
    separate, optional step (Presolve.v). *)
From Verif Require Export MatrixData Runs.

Inductive answer := Solved_to (s : solution) | NoSolution | NoBound.
Definition solve_general (r : representation) (n : rule_name) (fuel : nat) (g : general) : res answer :=
  let* gc := standardize g in
  let* d := derive_matrix_data (fst gc) (snd gc) in
  let* result := run r n fuel (md_provider d) in
  match result with
  | FiniteOptimum x => let* s := full_solution fuel (fst gc) (reconstruct d x) in Ok (Solved_to s)
  | Infeasible => Ok NoSolution
  | Unbounded => Ok NoBound
  end.
