(** * Starting from a chosen basis: model of the calls in /repo/examples/column_range.rs:178-189 *)
From Verif Require Export Runs.

(** column_range.rs:180 `Carry::from_basis` (carry/mod.rs:444-478, [from_basis]), 184-186
    `Tableau::new_with_inverse_maintainer` (tableau/kind/non_artificial.rs:91-105: the parts are put together) and 189
    `phase_two::primal` (phase_two.rs:24-59, [phase_two]), with a representation and a pivot rule *)
Definition start_from (r : representation) (n : rule_name) (fuel : nat) (p : provider) (basis : list nat) : res opt_result :=
  let* c := from_basis (ops r) basis p in
  phase_two (ops r) (rule n (ops r)) fuel (non_artificial p) (mk_tab c basis).
