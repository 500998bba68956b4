(** * The repository's unit tests of presolving, run on the model

    These are tests of the model, not proofs: they compare what the model computes with what the repository's authors
    expect of the code.  Programs and expected results are those of the test functions cited beside them.  *)
From Verif Require Import ExPresolve Examples ExParse ExGeneral SparseP.
From Coq Require Import String List.
Local Open Scope string_scope.
Local Open Scope list_scope.
Local Open Scope nat_scope.

(** updates.rs:398-452 `into_changes`: the values that are reported as changed *)
Definition changed_b (g : general) (u : updates) (i : nat) : option Qc :=
  if is_gone u i then None else if qeqb (b_of g u i) (nthq (g_b g) i) then None else Some (b_of g u i).
Definition changed_type (g : general) (u : updates) (i : nat) : option rel :=
  if is_gone u i then None else if rel_eqb (type_of g u i) (nth i (g_types g) Equal) then None else Some (type_of g u i).
Definition changed_bound (g : general) (u : updates) (j : nat) (d : bdir) : option Qc :=
  if is_removed u j then None else
  match u_bounds u j d with
  | Some x => Some x
  | None => match v_lower (gvar g j), v_upper (gvar g j), u_bounds u j Lower, u_bounds u j Upper with None, None, None, None => u_acts u j d | _, _, _, _ => None end
  end.
Definition lookup {A} (l : list (nat * A)) (i : nat) : option A := option_map snd (find (fun e => Nat.eqb (fst e) i) l).
Definition lookup2 (l : list (nat * bdir * Qc)) (j : nat) (d : bdir) : option Qc :=
  option_map snd (find (fun e => Nat.eqb (fst (fst e)) j && bdir_eqb (snd (fst e)) d) l).
Definition removed_eqb (a b : removed) : bool :=
  match a, b with
  | Solved x, Solved y => qeqb x y
  | FunctionOf c l, FunctionOf d k => qeqb c d && list_eqb (pair_eqb Nat.eqb qeqb) l k
  | _, _ => false
  end.
Definition changes_are (g : general) (p : pr updates) (b : list (nat * Qc)) (types : list (nat * rel)) (fixed : Qc) (bounds : list (nat * bdir * Qc))
    (variables : list (nat * removed)) (gone : list nat) : bool :=
  match p with
  | Go u =>
      forallb (fun i => opt_eqb qeqb (changed_b g u i) (lookup b i) && opt_eqb rel_eqb (changed_type g u i) (lookup types i)) (range 0 (g_rows g)) &&
      qeqb (u_fixed u) fixed &&
      forallb (fun j => opt_eqb qeqb (changed_bound g u j Lower) (lookup2 bounds j Lower) && opt_eqb qeqb (changed_bound g u j Upper) (lookup2 bounds j Upper)) (range 0 (length (g_vars g))) &&
      list_eqb (pair_eqb Nat.eqb removed_eqb) (sort_by fst (u_removed u)) variables &&
      list_eqb Nat.eqb (sort_by (fun x => x) (u_gone u)) gone
  | _ => false
  end.
Definition says_infeasible {A} (p : pr A) : bool := match p with Stop VInfeasible => true | _ => false end.

(** /repo/src/data/linear_program/general_form/presolve/test/changes.rs:19 *)
Definition no_changes : general := new_general Maximize 3
  [[(0, q (1) 1); (1, q (4) 5); (2, q (3) 2)];
   [(0, q (1) 1); (1, q (3) 2); (2, q (4) 5)]]
  [Less; Less; Less] [q (1) 1; q (6) 5; q (6) 5]
  [mk_var false (q (1) 1) (Some (q (0) 1)) (Some (q (3) 4)) (q (0) 1) false; mk_var false (q (1) 1) (Some (q (0) 1)) (Some (q (3) 4)) (q (0) 1) false]
  ["x"; "x"] (q (0) 1).
Example no_changes_as_expected : changes_are no_changes (presolve_changes 100 no_changes)
  [] [] ((q (0) 1)%Qc) []
  []
  [] = true.
Proof. vm_compute. reflexivity. Qed.

(** /repo/src/data/linear_program/general_form/presolve/test/changes.rs:68 *)
Definition empty_column : general := new_general Maximize 3
  [[(0, q (1) 1); (1, q (4) 5); (2, q (3) 2)];
   [(0, q (1) 1); (1, q (3) 2); (2, q (4) 5)];
   []]
  [Less; Less; Less] [q (1) 1; q (6) 5; q (6) 5]
  [mk_var false (q (1) 1) (Some (q (0) 1)) (Some (q (3) 4)) (q (0) 1) false; mk_var false (q (1) 1) (Some (q (0) 1)) (Some (q (3) 4)) (q (0) 1) false; mk_var false (q (1) 1) (Some (q (0) 1)) (Some (q (3) 4)) (q (0) 1) false]
  ["x"; "x"; "x"] (q (0) 1).
Example empty_column_as_expected : changes_are empty_column (presolve_changes 100 empty_column)
  [] [] ((q (3) 4)%Qc) []
  [(2, Solved (q (3) 4))]
  [] = true.
Proof. vm_compute. reflexivity. Qed.

(** /repo/src/data/linear_program/general_form/presolve/test/changes.rs:110 *)
Definition empty_column_no_cost : general := new_general Maximize 3
  [[(0, q (1) 1); (1, q (4) 5); (2, q (3) 2)];
   [(0, q (1) 1); (1, q (3) 2); (2, q (4) 5)];
   []]
  [Less; Less; Less] [q (1) 1; q (6) 5; q (6) 5]
  [mk_var false (q (1) 1) (Some (q (0) 1)) (Some (q (3) 4)) (q (0) 1) false; mk_var false (q (1) 1) (Some (q (0) 1)) (Some (q (3) 4)) (q (0) 1) false; mk_var false (q (0) 1) (Some (q (0) 1)) (Some (q (3) 4)) (q (0) 1) false]
  ["x"; "x"; "x"] (q (0) 1).
Example empty_column_no_cost_as_expected : changes_are empty_column_no_cost (presolve_changes 100 empty_column_no_cost)
  [] [] ((q (0) 1)%Qc) []
  [(2, Solved (q (3) 4))]
  [] = true.
Proof. vm_compute. reflexivity. Qed.

(** /repo/src/data/linear_program/general_form/presolve/test/changes.rs:155 *)
Definition empty_column_no_cost_no_bound : general := new_general Maximize 3
  [[(0, q (1) 1); (1, q (4) 5); (2, q (3) 2)];
   [(0, q (1) 1); (1, q (3) 2); (2, q (4) 5)];
   []]
  [Less; Less; Less] [q (1) 1; q (6) 5; q (6) 5]
  [mk_var false (q (1) 1) None None (q (0) 1) false; mk_var false (q (1) 1) None None (q (0) 1) false; mk_var false (q (0) 1) None None (q (0) 1) false]
  ["x"; "x"; "x"] (q (0) 1).
Example empty_column_no_cost_no_bound_as_expected : changes_are empty_column_no_cost_no_bound (presolve_changes 100 empty_column_no_cost_no_bound)
  [] [] ((q (0) 1)%Qc) []
  [(2, Solved (q (0) 1))]
  [] = true.
Proof. vm_compute. reflexivity. Qed.

(** /repo/src/data/linear_program/general_form/presolve/test/changes.rs:206 *)
Definition infeasible_equality_bound : general := new_general Maximize 4
  [[(0, q (1) 1); (1, q (4) 5); (2, q (3) 2)];
   [(0, q (1) 1); (1, q (3) 2); (2, q (4) 5)]]
  [Less; Less; Less; Equal] [q (1) 1; q (6) 5; q (6) 5; q (123) 1]
  [mk_var false (q (1) 1) (Some (q (0) 1)) (Some (q (3) 4)) (q (0) 1) false; mk_var false (q (1) 1) (Some (q (0) 1)) (Some (q (3) 4)) (q (0) 1) false]
  ["x"; "x"] (q (0) 1).
Example infeasible_equality_bound_as_expected : says_infeasible (presolve_changes 100 infeasible_equality_bound) = true.
Proof. vm_compute. reflexivity. Qed.

(** /repo/src/data/linear_program/general_form/presolve/test/changes.rs:243 *)
Definition infeasible_inequality_bound : general := new_general Maximize 4
  [[(0, q (1) 1); (1, q (4) 5); (2, q (3) 2)];
   [(0, q (1) 1); (1, q (3) 2); (2, q (4) 5)]]
  [Less; Less; Less; Less] [q (1) 1; q (6) 5; q (6) 5; q (-123) 1]
  [mk_var false (q (1) 1) None (Some (q (3) 4)) (q (0) 1) false; mk_var false (q (1) 1) None (Some (q (3) 4)) (q (0) 1) false]
  ["x"; "x"] (q (0) 1).
Example infeasible_inequality_bound_as_expected : says_infeasible (presolve_changes 100 infeasible_inequality_bound) = true.
Proof. vm_compute. reflexivity. Qed.

(** /repo/src/data/linear_program/general_form/presolve/test/changes.rs:280 *)
Definition feasible_multiple : general := new_general Maximize 6
  [[(0, q (1) 1); (1, q (4) 5); (3, q (3) 2)];
   [(0, q (1) 1); (1, q (3) 2); (3, q (4) 5)]]
  [Less; Less; Equal; Less; Greater; Less] [q (1) 1; q (6) 5; q (0) 1; q (6) 5; q (-1234) 1; q (0) 1]
  [mk_var false (q (1) 1) (Some (q (0) 1)) None (q (0) 1) false; mk_var false (q (1) 1) (Some (q (0) 1)) None (q (0) 1) false]
  ["x"; "x"] (q (0) 1).
Example feasible_multiple_as_expected : changes_are feasible_multiple (presolve_changes 100 feasible_multiple)
  [] [] ((q (0) 1)%Qc) []
  []
  [2; 4; 5] = true.
Proof. vm_compute. reflexivity. Qed.

(** /repo/src/data/linear_program/general_form/presolve/test/changes.rs:335 *)
Definition infeasible_multiple : general := new_general Maximize 7
  [[(0, q (1) 1); (1, q (4) 5); (3, q (3) 2)];
   [(0, q (1) 1); (1, q (3) 2); (3, q (4) 5)]]
  [Less; Less; Equal; Less; Less; Greater; Less] [q (1) 1; q (6) 5; q (0) 1; q (6) 5; q (-5678) 1; q (-1234) 1; q (0) 1]
  [mk_var false (q (1) 1) (Some (q (0) 1)) None (q (0) 1) false; mk_var false (q (1) 1) (Some (q (0) 1)) None (q (0) 1) false]
  ["x"; "x"] (q (0) 1).
Example infeasible_multiple_as_expected : says_infeasible (presolve_changes 100 infeasible_multiple) = true.
Proof. vm_compute. reflexivity. Qed.

(** /repo/src/data/linear_program/general_form/presolve/test/changes.rs:392 *)
Definition shift_bounds : general := new_general Maximize 3
  [[(0, q (1) 1); (1, q (4) 5); (2, q (3) 2)];
   [(0, q (1) 1); (1, q (3) 2); (2, q (4) 5)];
   [(0, q (1) 1000)]]
  [Less; Less; Less] [q (1) 1; q (6) 5; q (6) 5]
  [mk_var false (q (1) 1) (Some (q (0) 1)) (Some (q (3) 4)) (q (0) 1) false; mk_var false (q (1) 1) (Some (q (0) 1)) (Some (q (3) 4)) (q (0) 1) false; mk_var false (q (0) 1) (Some (q (1) 1)) (Some (q (1) 1)) (q (0) 1) false]
  ["x"; "x"; "x"] (q (0) 1).
Example shift_bounds_as_expected : changes_are shift_bounds (presolve_changes 100 shift_bounds)
  [(0, q (999) 1000)] [] ((q (0) 1)%Qc) []
  [(2, Solved (q (1) 1))]
  [] = true.
Proof. vm_compute. reflexivity. Qed.

(** /repo/src/data/linear_program/general_form/presolve/test/changes.rs:446 *)
Definition shift_costs : general := new_general Maximize 3
  [[(0, q (1) 1); (1, q (4) 5); (2, q (3) 2)];
   [(0, q (1) 1); (1, q (3) 2); (2, q (4) 5)];
   []]
  [Less; Less; Less] [q (1) 1; q (6) 5; q (6) 5]
  [mk_var false (q (1) 1) (Some (q (0) 1)) (Some (q (3) 4)) (q (0) 1) false; mk_var false (q (1) 1) (Some (q (0) 1)) (Some (q (3) 4)) (q (0) 1) false; mk_var false (q (10) 1) (Some (q (3) 1)) (Some (q (3) 1)) (q (0) 1) false]
  ["x"; "x"; "x"] (q (0) 1).
Example shift_costs_as_expected : changes_are shift_costs (presolve_changes 100 shift_costs)
  [] [] ((q (30) 1)%Qc) []
  [(2, Solved (q (3) 1))]
  [] = true.
Proof. vm_compute. reflexivity. Qed.

(** /repo/src/data/linear_program/general_form/presolve/test/changes.rs:498 *)
Definition trigger_empty_row : general := new_general Maximize 4
  [[(1, q (1) 1); (2, q (4) 5); (3, q (3) 2)];
   [(0, q (-51) 1); (1, q (1) 100)];
   [(1, q (1) 1); (2, q (3) 2); (3, q (4) 5)]]
  [Less; Less; Less; Less] [q (-20) 1; q (1) 1; q (6) 5; q (6) 5]
  [mk_var false (q (1) 1) (Some (q (0) 1)) (Some (q (3) 4)) (q (0) 1) false; mk_var false (q (15) 1) (Some (q (1) 2)) (Some (q (1) 2)) (q (0) 1) false; mk_var false (q (1) 1) (Some (q (0) 1)) (Some (q (3) 4)) (q (0) 1) false]
  ["x"; "x"; "x"] (q (0) 1).
Example trigger_empty_row_as_expected : changes_are trigger_empty_row (presolve_changes 100 trigger_empty_row)
  [(1, q (199) 200)] [] ((q (15) 2)%Qc) []
  [(1, Solved (q (1) 2))]
  [0] = true.
Proof. vm_compute. reflexivity. Qed.

(** /repo/src/data/linear_program/general_form/presolve/test/changes.rs:557 *)
Definition trigger_bound_rule : general := new_general Maximize 4
  [[(1, q (1) 1); (2, q (4) 5); (3, q (3) 2)];
   [(0, q (1) 2); (2, q (1) 20)];
   [(0, q (1) 1); (1, q (1) 1); (2, q (3) 2); (3, q (4) 5)]]
  [Less; Less; Less; Less] [q (1) 1; q (1) 1; q (6) 5; q (6) 5]
  [mk_var false (q (-12) 1) (Some (q (0) 1)) None (q (0) 1) false; mk_var false (q (-11) 1) (Some (q (1) 2)) (Some (q (1) 2)) (q (0) 1) false; mk_var false (q (-12) 1) (Some (q (0) 1)) None (q (0) 1) false]
  ["x"; "x"; "x"] (q (0) 1).
Example trigger_bound_rule_as_expected : changes_are trigger_bound_rule (presolve_changes 100 trigger_bound_rule)
  [(2, q (47) 40)] [] ((q (-11) 2)%Qc) [(2, Upper, q (3) 4)]
  [(1, Solved (q (1) 2))]
  [0] = true.
Proof. vm_compute. reflexivity. Qed.

(** /repo/src/data/linear_program/general_form/presolve/test/changes.rs:622 *)
Definition feasible_inequality : general := new_general Maximize 4
  [[(0, q (1) 1); (1, q (4) 5); (3, q (3) 2)];
   [(0, q (1) 1); (1, q (3) 2); (2, q (1) 1); (3, q (4) 5)]]
  [Less; Less; Less; Less] [q (1) 1; q (6) 5; q (3) 4; q (6) 5]
  [mk_var false (q (-2) 1) None None (q (14) 1) false; mk_var false (q (-2) 1) None None (q (14) 1) false]
  ["x"; "x"] (q (12) 1).
Example feasible_inequality_as_expected : changes_are feasible_inequality (presolve_changes 100 feasible_inequality)
  [] [] ((q (0) 1)%Qc) [(1, Upper, q (3) 4)]
  []
  [2] = true.
Proof. vm_compute. reflexivity. Qed.

(** /repo/src/data/linear_program/general_form/presolve/test/changes.rs:670 *)
Definition feasible_inequality_negative_sign : general := new_general Maximize 4
  [[(0, q (1) 1); (1, q (4) 5); (3, q (3) 2)];
   [(0, q (1) 1); (1, q (3) 2); (2, q (-1) 1); (3, q (4) 5)]]
  [Less; Less; Less; Less] [q (1) 1; q (6) 5; q (-3) 4; q (6) 5]
  [mk_var false (q (-2) 1) None None (q (14) 1) false; mk_var false (q (-2) 1) None None (q (14) 1) false]
  ["x"; "x"] (q (12) 1).
Example feasible_inequality_negative_sign_as_expected : changes_are feasible_inequality_negative_sign (presolve_changes 100 feasible_inequality_negative_sign)
  [] [] ((q (0) 1)%Qc) [(0, Upper, q (3) 32); (1, Lower, q (3) 4)]
  []
  [2] = true.
Proof. vm_compute. reflexivity. Qed.

(** /repo/src/data/linear_program/general_form/presolve/test/changes.rs:719 *)
Definition feasible_equality_unsolved_no_substitution : general := new_general Maximize 4
  [[(0, q (1) 1); (1, q (4) 5); (3, q (3) 2)];
   [(0, q (1) 1); (1, q (3) 2); (3, q (4) 5)];
   [(2, q (1) 1)]]
  [Less; Less; Equal; Less] [q (1) 1; q (6) 5; q (10) 1; q (6) 5]
  [mk_var false (q (2) 1) None None (q (14) 1) false; mk_var false (q (2) 1) None None (q (14) 1) false; mk_var false (q (2) 1) None None (q (14) 1) false]
  ["x"; "x"; "x"] (q (12) 1).
Example feasible_equality_unsolved_no_substitution_as_expected : changes_are feasible_equality_unsolved_no_substitution (presolve_changes 100 feasible_equality_unsolved_no_substitution)
  [] [] ((q (20) 1)%Qc) []
  [(2, Solved (q (10) 1))]
  [2] = true.
Proof. vm_compute. reflexivity. Qed.

(** /repo/src/data/linear_program/general_form/presolve/test/changes.rs:763 *)
Definition feasible_equality_unsolved_substitution : general := new_general Maximize 4
  [[(0, q (1) 1); (1, q (4) 5); (3, q (3) 2)];
   [(0, q (1) 1); (1, q (3) 2); (3, q (4) 5)];
   [(2, q (-1) 1); (3, q (1) 100)]]
  [Less; Less; Equal; Less] [q (1) 1; q (6) 5; q (-3) 1; q (6) 5]
  [mk_var false (q (2) 1) None None (q (14) 1) false; mk_var false (q (2) 1) None None (q (14) 1) false; mk_var false (q (2) 1) None None (q (14) 1) false]
  ["x"; "x"; "x"] (q (12) 1).
Example feasible_equality_unsolved_substitution_as_expected : changes_are feasible_equality_unsolved_substitution (presolve_changes 100 feasible_equality_unsolved_substitution)
  [(3, q (117) 100)] [] ((q (6) 1)%Qc) []
  [(2, Solved (q (3) 1))]
  [2] = true.
Proof. vm_compute. reflexivity. Qed.

(** /repo/src/data/linear_program/general_form/presolve/test/changes.rs:811 *)
Definition feasible_equality_solved : general := new_general Maximize 4
  [[(0, q (1) 1); (1, q (4) 5); (2, q (1) 1); (3, q (3) 2)];
   [(0, q (1) 1); (1, q (3) 2); (3, q (4) 5)]]
  [Less; Less; Equal; Less] [q (1) 1; q (6) 5; q (3) 4; q (6) 5]
  [mk_var false (q (2) 1) None None (q (14) 1) false; mk_var false (q (2) 1) None None (q (14) 1) false]
  ["x"; "x"] (q (12) 1).
Example feasible_equality_solved_as_expected : changes_are feasible_equality_solved (presolve_changes 100 feasible_equality_solved)
  [] [] (((q (3) 4 + q (3) 32) * q (2) 1)%Qc) []
  [(0, Solved (q (3) 4)); (1, Solved (q (3) 32))]
  [0; 1; 2; 3] = true.
Proof. vm_compute. reflexivity. Qed.

(** /repo/src/data/linear_program/general_form/presolve/test/changes.rs:858 *)
Definition feasible_equality_unsolved_independent_column : general := new_general Minimize 4
  [[(0, q (1) 1); (1, q (4) 5); (3, q (3) 2)];
   [(0, q (1) 1); (1, q (3) 2); (3, q (4) 5)];
   [(2, q (1) 1)]]
  [Less; Less; Greater; Less] [q (1) 1; q (6) 5; q (-3) 1; q (6) 5]
  [mk_var false (q (-3) 1) None None (q (-1) 1) true; mk_var false (q (-3) 1) None None (q (-1) 1) true; mk_var false (q (0) 1) None None (q (-1) 1) true]
  ["x"; "x"; "x"] (q (-12) 1).
Example feasible_equality_unsolved_independent_column_as_expected : changes_are feasible_equality_unsolved_independent_column (presolve_changes 100 feasible_equality_unsolved_independent_column)
  [] [] ((q (0) 1)%Qc) []
  [(2, Solved (q (-3) 1))]
  [2] = true.
Proof. vm_compute. reflexivity. Qed.

(** /repo/src/data/linear_program/general_form/presolve/test/changes.rs:906 *)
Definition feasible_equality_unsolved_slack : general := new_general Minimize 4
  [[(0, q (1) 1); (1, q (4) 5); (3, q (3) 2)];
   [(0, q (1) 1); (1, q (3) 2); (3, q (4) 5)];
   [(0, q (1) 1); (2, q (1) 1)]]
  [Equal; Less; Greater; Less] [q (2) 1; q (6) 5; q (1) 1; q (6) 5]
  [mk_var false (q (-3) 1) None None (q (-1) 1) true; mk_var false (q (-3) 1) None None (q (-1) 1) true; mk_var false (q (0) 1) None None (q (-1) 1) true]
  ["x"; "x"; "x"] (q (-12) 1).
Example feasible_equality_unsolved_slack_as_expected : changes_are feasible_equality_unsolved_slack (presolve_changes 100 feasible_equality_unsolved_slack)
  [(0, q (1) 1)] [(0, Less)] ((q (0) 1)%Qc) []
  [(2, FunctionOf (q (2) 1) [(0, q (1) 1); (1, q (1) 1)])]
  [2] = true.
Proof. vm_compute. reflexivity. Qed.

(** /repo/src/data/linear_program/general_form/presolve/test/changes.rs:966 *)
Definition remove_slack : general := new_general Maximize 3
  [[(0, q (1) 1); (1, q (4) 5); (2, q (3) 2)];
   [(0, q (1) 1); (1, q (3) 2); (2, q (4) 5)];
   [(0, q (1) 1)]]
  [Equal; Less; Less] [q (1) 1; q (6) 5; q (6) 5]
  [mk_var false (q (1) 1) (Some (q (0) 1)) (Some (q (3) 4)) (q (0) 1) false; mk_var false (q (1) 1) (Some (q (0) 1)) (Some (q (3) 4)) (q (0) 1) false; mk_var false (q (0) 1) (Some (q (0) 1)) None (q (0) 1) false]
  ["x"; "x"; "x"] (q (0) 1).
Example remove_slack_as_expected : changes_are remove_slack (presolve_changes 100 remove_slack)
  [] [(0, Less)] ((q (0) 1)%Qc) []
  [(2, FunctionOf (q (1) 1) [(0, q (1) 1); (1, q (1) 1)])]
  [] = true.
Proof. vm_compute. reflexivity. Qed.

(** /repo/src/data/linear_program/general_form/presolve/test/changes.rs:1016 *)
Definition remove_range_slack : general := new_general Maximize 3
  [[(0, q (1) 1); (1, q (4) 5); (2, q (3) 2)];
   [(0, q (1) 1); (1, q (3) 2); (2, q (4) 5)];
   [(0, q (1) 1)]]
  [Equal; Less; Less] [q (1) 1; q (6) 5; q (6) 5]
  [mk_var false (q (1) 1) (Some (q (0) 1)) (Some (q (3) 4)) (q (0) 1) false; mk_var false (q (1) 1) (Some (q (0) 1)) (Some (q (3) 4)) (q (0) 1) false; mk_var false (q (0) 1) (Some (q (0) 1)) (Some (q (3) 4)) (q (0) 1) false]
  ["x"; "x"; "x"] (q (0) 1).
Example remove_range_slack_as_expected : changes_are remove_range_slack (presolve_changes 100 remove_range_slack)
  [] [(0, Range (q (3) 4))] ((q (0) 1)%Qc) []
  [(2, FunctionOf (q (1) 1) [(0, q (1) 1); (1, q (1) 1)])]
  [] = true.
Proof. vm_compute. reflexivity. Qed.

(** /repo/src/data/linear_program/general_form/presolve/test/changes.rs:1065 *)
Definition free_variable : general := new_general Maximize 3
  [[(0, q (1) 1); (1, q (4) 5); (2, q (3) 2)];
   [(0, q (1) 1); (1, q (3) 2); (2, q (4) 5)];
   [(0, q (1) 1)]]
  [Equal; Less; Less] [q (1) 1; q (6) 5; q (6) 5]
  [mk_var false (q (1) 1) (Some (q (0) 1)) (Some (q (3) 4)) (q (0) 1) false; mk_var false (q (1) 1) (Some (q (0) 1)) (Some (q (3) 4)) (q (0) 1) false; mk_var false (q (0) 1) None None (q (0) 1) false]
  ["x"; "x"; "x"] (q (0) 1).
Example free_variable_as_expected : changes_are free_variable (presolve_changes 100 free_variable)
  [] [] ((q (0) 1)%Qc) []
  [(2, FunctionOf (q (1) 1) [(0, q (1) 1); (1, q (1) 1)])]
  [0] = true.
Proof. vm_compute. reflexivity. Qed.

(** /repo/src/data/linear_program/general_form/presolve/test/changes.rs:1116 *)
Definition range_slack_for_range_bound : general := new_general Maximize 3
  [[(0, q (1) 1); (1, q (4) 5); (2, q (3) 2)];
   [(0, q (1) 1); (1, q (3) 2); (2, q (4) 5)];
   [(0, q (1) 1)]]
  [Range (q (1) 2); Less; Less] [q (1) 1; q (6) 5; q (6) 5]
  [mk_var false (q (14) 1) None None (q (0) 1) false; mk_var false (q (14) 1) None None (q (0) 1) false; mk_var false (q (0) 1) (Some (q (0) 1)) (Some (q (1) 2)) (q (0) 1) false]
  ["x"; "x"; "x"] (q (0) 1).
Example range_slack_for_range_bound_as_expected : changes_are range_slack_for_range_bound (presolve_changes 100 range_slack_for_range_bound)
  [] [(0, Range (q (1) 1))] ((q (0) 1)%Qc) []
  [(2, FunctionOf (q (1) 1) [(0, q (1) 1); (1, q (1) 1)])]
  [] = true.
Proof. vm_compute. reflexivity. Qed.

(** /repo/src/data/linear_program/general_form/presolve/test/changes.rs:1168 *)
Definition range_slack_inequality_bound : general := new_general Maximize 4
  [[(0, q (1) 1); (1, q (1) 1); (2, q (4) 5); (3, q (3) 2)];
   [(1, q (1) 1); (2, q (3) 2); (3, q (4) 5)];
   [(0, q (1) 1)]]
  [Less; Less; Less; Less] [q (1) 1; q (1) 1; q (6) 5; q (6) 5]
  [mk_var false (q (1) 1) None None (q (0) 1) false; mk_var false (q (1) 1) None None (q (0) 1) false; mk_var false (q (0) 1) (Some (q (0) 1)) (Some (q (1) 1)) (q (0) 1) false]
  ["x"; "x"; "x"] (q (0) 1).
Example range_slack_inequality_bound_as_expected : changes_are range_slack_inequality_bound (presolve_changes 100 range_slack_inequality_bound)
  [] [] ((q (0) 1)%Qc) [(0, Upper, q (1) 1)]
  [(2, Solved (q (0) 1))]
  [0] = true.
Proof. vm_compute. reflexivity. Qed.

(** /repo/src/data/linear_program/general_form/presolve/test/changes.rs:1225 *)
Definition remove_redundant_constraint : general := new_general Maximize 3
  [[(0, q (1) 1); (1, q (4) 5); (2, q (3) 2)];
   [(0, q (1) 1); (1, q (3) 2); (2, q (4) 5)]]
  [Less; Less; Less] [q (3) 2; q (6) 5; q (6) 5]
  [mk_var false (q (1) 1) (Some (q (0) 1)) (Some (q (3) 4)) (q (0) 1) false; mk_var false (q (1) 1) (Some (q (0) 1)) (Some (q (3) 4)) (q (0) 1) false]
  ["x"; "x"] (q (0) 1).
Example remove_redundant_constraint_as_expected : changes_are remove_redundant_constraint (presolve_changes 100 remove_redundant_constraint)
  [] [] ((q (0) 1)%Qc) []
  []
  [0] = true.
Proof. vm_compute. reflexivity. Qed.

(** /repo/src/data/linear_program/general_form/presolve/test/changes.rs:1267 *)
Definition trigger_fixed_unfeasible : general := new_general Maximize 3
  [[(0, q (1) 1); (1, q (4) 5); (2, q (3) 2)];
   [(0, q (1) 1); (1, q (3) 2); (2, q (4) 5)]]
  [Equal; Less; Less] [q (1) 1; q (6) 5; q (6) 5]
  [mk_var false (q (14) 1) (Some (q (1) 4)) None (q (0) 1) false; mk_var false (q (14) 1) (Some (q (3) 4)) None (q (0) 1) false]
  ["x"; "x"] (q (0) 1).
Example trigger_fixed_unfeasible_as_expected : says_infeasible (presolve_changes 100 trigger_fixed_unfeasible) = true.
Proof. vm_compute. reflexivity. Qed.

(** /repo/src/data/linear_program/general_form/presolve/test/changes.rs:1306 *)
Definition trigger_substitution_feasible : general := new_general Maximize 3
  [[(0, q (1) 1); (1, q (4) 5); (2, q (3) 2)];
   [(0, q (1) 1); (1, q (3) 2); (2, q (4) 5)]]
  [Equal; Less; Less] [q (1) 1; q (6) 5; q (6) 5]
  [mk_var false (q (14) 1) (Some (q (1) 2)) None (q (0) 1) false; mk_var false (q (14) 1) (Some (q (1) 2)) None (q (0) 1) false]
  ["x"; "x"] (q (0) 1).
Example trigger_substitution_feasible_as_expected : changes_are trigger_substitution_feasible (presolve_changes 100 trigger_substitution_feasible)
  [] [] ((q (14) 1 * (q (1) 2 + q (1) 2))%Qc) []
  [(0, Solved (q (1) 2)); (1, Solved (q (1) 2))]
  [0; 1; 2] = true.
Proof. vm_compute. reflexivity. Qed.

(** /repo/src/data/linear_program/general_form/presolve/test/changes.rs:1352 *)
Definition trigger_substitution_infeasible : general := new_general Maximize 3
  [[(0, q (1) 1); (1, q (4) 5); (2, q (3) 2)];
   [(0, q (1) 1); (1, q (3) 2); (2, q (4) 5)]]
  [Less; Less; Less] [q (1) 1; q (6) 5; q (6) 5]
  [mk_var false (q (14) 1) (Some (q (2) 3)) None (q (0) 1) false; mk_var false (q (14) 1) (Some (q (2) 3)) None (q (0) 1) false]
  ["x"; "x"] (q (0) 1).
Example trigger_substitution_infeasible_as_expected : says_infeasible (presolve_changes 100 trigger_substitution_infeasible) = true.
Proof. vm_compute. reflexivity. Qed.

(** /repo/src/data/linear_program/general_form/presolve/test/changes.rs:1388 *)
Definition all_constraints_redundant : general := new_general Maximize 3
  [[(0, q (1) 1); (1, q (4) 5); (2, q (3) 2)];
   [(0, q (1) 1); (1, q (3) 2); (2, q (4) 5)]]
  [Less; Less; Less] [q (3) 2; q (6) 5; q (6) 5]
  [mk_var false (q (1) 1) (Some (q (0) 1)) (Some (q (1) 4)) (q (0) 1) false; mk_var false (q (1) 1) (Some (q (0) 1)) (Some (q (1) 4)) (q (0) 1) false]
  ["x"; "x"] (q (0) 1).
Example all_constraints_redundant_as_expected : changes_are all_constraints_redundant (presolve_changes 100 all_constraints_redundant)
  [] [] ((q (1) 2)%Qc) []
  [(0, Solved (q (1) 4)); (1, Solved (q (1) 4))]
  [0; 1; 2] = true.
Proof. vm_compute. reflexivity. Qed.

(** ** Single rules *)
(** /repo/src/data/linear_program/general_form/presolve/test/per_rule.rs: [rule] applied to the index of [g] *)
Definition one_rule (g : general) (rule : general -> list svec -> pindex -> pr pindex) : pr pindex :=
  let+ rows := lift (transpose_from 0 (g_cols g) (repeat [] (g_rows g))) in
  let+ s := index_new g rows in
  rule g rows s.
Definition test_variable (cost : Qc) (lower upper : option Qc) : variable := mk_var false cost lower upper (q 0 1) false.
Definition test_one (types : list rel) (entries : list (nat * Qc)) (v : variable) (b : list Qc) (fixed : Qc) : general :=
  new_general Minimize 2 [entries] types b [v] ["X"] fixed.
Definition state_is (p : pr pindex) (constraint variable : list nat) (variables : list (nat * removed)) (gone : list nat) (more : pindex -> bool) : bool :=
  match p with
  | Go s => list_eqb Nat.eqb (c_con (i_c s)) constraint && list_eqb Nat.eqb (c_var (i_c s)) variable &&
            list_eqb (pair_eqb Nat.eqb removed_eqb) (u_removed (i_u s)) variables && list_eqb Nat.eqb (u_gone (i_u s)) gone && more s
  | _ => false
  end.
(** per_rule.rs:15-43 *)
Definition fixed_feasible : general :=
  test_one [Equal; Greater] [(0, q 1 1); (1, q 2 1)]%nat (test_variable (q 1 1) (Some (q 1 1)) (Some (q 1 1))) [q 1 1; q 1 1] (q 7 1).
Example presolve_fixed_variable_feasible_as_expected :
  state_is (one_rule fixed_feasible (fun g rows s => fixed_variable_rule g s 0)) [0; 0] [0] [(0, Solved (q 1 1))] [0; 1]
    (fun s => opt_eqb qeqb (u_b (i_u s) 0) (Some (q 0 1)) && opt_eqb qeqb (u_b (i_u s) 1) (Some (q (-1) 1)) && qeqb (u_fixed (i_u s)) (q 1 1) &&
              negb (queues_empty (i_q s))) = true.
Proof. vm_compute. reflexivity. Qed.
(** per_rule.rs:45-65 *)
Definition fixed_infeasible : general :=
  test_one [Equal; Equal] [(0, q 1 1); (1, q 2 1)]%nat (test_variable (q 1 1) (Some (q 1 1)) (Some (q 1 1))) [q 1 1; q 1 1] (q 7 1).
Example presolve_fixed_variable_infeasible_as_expected : says_infeasible (one_rule fixed_infeasible (fun g rows s => fixed_variable_rule g s 0)) = true.
Proof. vm_compute. reflexivity. Qed.
(** per_rule.rs:67-96 *)
Definition simple_bound : general :=
  test_one [Equal; Equal] [(0, q 1 1); (1, q 1 1)]%nat (test_variable (q 1 1) None None) [q 2 1; q 2 1] (q 0 1).
Example presolve_simple_bound_constraint_as_expected :
  state_is (one_rule simple_bound (fun g rows s => bound_constraint_rule g rows s 0)) [0; 1] [1] [] [0]
    (fun s => opt_eqb qeqb (u_bounds (i_u s) 0 Lower) (Some (q 2 1)) && opt_eqb qeqb (u_bounds (i_u s) 0 Upper) (Some (q 2 1)) && negb (queues_empty (i_q s))) = true.
Proof. vm_compute. reflexivity. Qed.
(** per_rule.rs:98-176 *)
Definition with_slack (t : rel) (lower upper : option Qc) : general :=
  new_general Minimize 1 (repeat [(0%nat, q 2 1)] 3) [t] [q 3 1] (repeat (test_variable (q 0 1) lower upper) 3) ["X"; "X"; "X"] (q 0 1).
Definition slack_of_others : removed := FunctionOf (q 3 2) [(1%nat, q 1 1); (2%nat, q 1 1)].
Definition slack_test (t : rel) (lower upper : option Qc) : pr pindex := one_rule (with_slack t lower upper) (fun g rows s => slack_rule g rows s 0).
Example presolve_slack_equal_range_as_expected :
  state_is (slack_test Equal (Some (q 1 1)) (Some (q 2 1))) [2] [0; 1; 1] [(0, slack_of_others)] [] (fun _ => true) = true.
Proof. vm_compute. reflexivity. Qed.
Example presolve_slack_equal_lower_as_expected :
  state_is (slack_test Equal (Some (q 1 1)) None) [2] [0; 1; 1] [(0, slack_of_others)] []
    (fun s => rel_eqb (type_of (with_slack Equal (Some (q 1 1)) None) (i_u s) 0) Less && qeqb (b_of (with_slack Equal (Some (q 1 1)) None) (i_u s) 0) (q 1 1)) = true.
Proof. vm_compute. reflexivity. Qed.
Example presolve_slack_equal_upper_as_expected :
  state_is (slack_test Equal None (Some (q 1 1))) [2] [0; 1; 1] [(0, slack_of_others)] []
    (fun s => rel_eqb (type_of (with_slack Equal None (Some (q 1 1))) (i_u s) 0) Greater && qeqb (b_of (with_slack Equal None (Some (q 1 1))) (i_u s) 0) (q 1 1)) = true.
Proof. vm_compute. reflexivity. Qed.
Example presolve_slack_greater_lower_as_expected :
  state_is (slack_test Greater (Some (q 1 1)) None) [0] [0; 0; 0] [(1, Solved (q 1 1)); (2, Solved (q 1 1)); (0, slack_of_others)] [0] (fun _ => true) = true.
Proof. vm_compute. reflexivity. Qed.

(** ** The whole of presolving *)
(** /repo/src/data/linear_program/general_form/presolve/test/with_application.rs:25-134 *)
Definition with_application : general := new_general Minimize 4
  [[(0, q 2 1); (1, q 3 1); (2, q 7 1); (3, q 17 1)]; [(1, q 5 1); (2, q 11 1); (3, q 19 1)]; [(2, q 13 1); (3, q 23 1)]; []; [(3, q 29 1)]; [(3, q 31 1)]]%nat
  [Equal; Less; Greater; Equal] [q 101 1; q 103 1; q 107 1; q 109 1]
  [test_variable (q 211 1) None None; test_variable (q 223 1) (Some (q (-97) 10)) None; test_variable (q 227 1) None None;
   test_variable (q (-229) 1) None (Some (q 131 1)); test_variable (q 233 1) (Some (q (-30736) 1885)) (Some (q 123 1)); test_variable (q 0 1) (Some (q 5 1)) None]
  ["XONE"; "XTWO"; "XTHREE"; "XFOUR"; "XFIVE"; "XSIX"] (q 1 1).
Definition with_application_solution : solution := mk_solution
  (q 1 1 + q (211 * 101) 2 + q (223 * -97) 10 + q (227 * -699) 65 + q (-229 * 131) 1 + q (233 * -30736) 1885)%Qc
  [("XONE", q 101 2); ("XTWO", ((q 103 1 - q 101 1 / q 2 1 * q 3 1) / q 5 1)%Qc); ("XTHREE", ((q (-3601) 5 + q (29 * 30736) 1885) / q 23 1)%Qc);
   ("XFOUR", q 131 1); ("XFIVE", q (-30736) 1885); ("XSIX", q 5 1)].
Example with_application_as_expected :
  match presolve 100 with_application with Stop (VOptimum s) => answer_is (Ok (Solved_to s)) (Solved_to with_application_solution) | _ => false end = true.
Proof. vm_compute. reflexivity. Qed.
