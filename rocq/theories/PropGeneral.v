(** * Properties C16 to C21: from general form programs to the solver and back *)
From Verif Require Import SpecGeneral Pipeline SparseP StandardP StandardR MatrixDataP PipelineP SpecSizes SolverQ ExGeneral Examples GeneralQ.
Local Open Scope Qc_scope.

(** ** C16: the computational form encodes the general form exactly *)
Theorem C16_points_correspond : forall g c, general_ok g -> standard_shape g c -> exists d, derive_matrix_data g c = Ok d /\
  (forall z, feasible (md_provider d) z -> gfeasible g z) /\
  (forall x, gfeasible g x -> exists z, feasible (md_provider d) z /\ forall j, (j < nr_vars g)%nat -> z j = x j) /\
  (forall z z', feasible (md_provider d) z -> feasible (md_provider d) z' -> (forall j, (j < nr_vars g)%nat -> z j = z' j) ->
     forall j, (j < p_cols (md_provider d))%nat -> z j = z' j).
Proof. exact md_correspond. Qed.
Print Assumptions C16_points_correspond.
Theorem C16_same_cost : forall g c d z, general_ok g -> standard_shape g c -> derive_matrix_data g c = Ok d ->
  gcost g z = g_fixed g + objective (md_provider d) z.
Proof. exact md_cost_same. Qed.
Print Assumptions C16_same_cost.
Theorem C16_reconstruct_drops_slacks : forall g c d z, general_ok g -> standard_shape g c -> derive_matrix_data g c = Ok d ->
  wfs (p_cols (md_provider d)) z ->
  wfs (nr_vars g) (reconstruct d z) /\ forall j, (j < nr_vars g)%nat -> den (reconstruct d z) j = den z j.
Proof. exact md_reconstruct. Qed.
Print Assumptions C16_reconstruct_drops_slacks.
(** the computational form meets what the solver requires (and so C01 to C15 apply to it) *)
Theorem C16_meets_solver_contract : forall g c d, general_ok g -> standard_shape g c -> derive_matrix_data g c = Ok d ->
  provider_ok (md_provider d).
Proof. exact md_contract. Qed.
Print Assumptions C16_meets_solver_contract.
(** a program with constraints of every type, one of its variables bounded *)
Example C16_case : general_ok ex_shape /\ standard_shape ex_shape (mk_counts 1 1 1 1) /\
  gfeasible ex_shape (nthq [zq 1; zq 2]).
Proof. exact ex_shape_ok. Qed.

(** ** C17: the advertised initial pivots *)
Theorem C17_pivots_sorted_distinct : forall d,
  increasing_from 0 (map fst (md_pivots d)) /\ NoDup (map fst (md_pivots d)) /\ NoDup (map snd (md_pivots d)).
Proof. exact pivots_sorted_distinct. Qed.
Print Assumptions C17_pivots_sorted_distinct.
Theorem C17_pivots_unit_columns : forall d r j, In (r, j) (md_pivots d) ->
  (r < p_rows (md_provider d))%nat /\ (j < p_cols (md_provider d))%nat /\
  (forall i, den (p_col (md_provider d) j) i = if Nat.eqb i r then 1 else 0) /\ p_cost (md_provider d) j = 0.
Proof. exact pivots_unit_columns. Qed.
Print Assumptions C17_pivots_unit_columns.
Example C17_case : exists d, derive_matrix_data ex_shape (mk_counts 1 1 1 1) = Ok d /\
  md_pivots d = [(2, 3); (4, 5); (5, 6)]%nat.
Proof. eexists. split; vm_compute; reflexivity. Qed.

(** ** C18: standardizing preserves the problem *)
Theorem C18_standardize : forall g, general_ok g -> exists g' c F G, standardize g = Ok (g', c) /\
  general_ok g' /\ standard_shape g' c /\
  (forall x, gfeasible g' x -> gfeasible g (F x)) /\ (forall x, gfeasible g x -> gfeasible g' (G x)) /\
  (forall x j, (j < nr_vars g)%nat -> F (G x) j = x j) /\
  ((forall j, (j < nr_vars g)%nat -> ~ (v_lower (var g j) = None /\ v_upper (var g j) = None)) ->
     forall x j, (j < nr_vars g')%nat -> G (F x) j = x j) /\
  (g_objective g = Minimize -> forall x, gcost g' x = gcost g (F x)) /\
  (forall x val, completed g' x val <-> completed g (F x) val) /\ map fst (g_orig g') = map fst (g_orig g).
Proof. exact standardize_theorem. Qed.
Print Assumptions C18_standardize.
Example C18_case : general_ok ex_general /\ fresh ex_general /\ exists g' c, standardize ex_general = Ok (g', c) /\
  nr_vars g' = 4%nat /\ c = mk_counts 1 1 2 0.
Proof. split; [|split]; try apply new_ok; try (vm_compute; reflexivity). eexists. eexists. split; [vm_compute; reflexivity|]. split; vm_compute; reflexivity. Qed.

(** ** C19: solutions are translated back *)
Theorem C19_translation : forall fuel g g' c z s, general_ok g -> g_objective g = Minimize -> standardize g = Ok (g', c) ->
  wfs (nr_vars g') z -> full_solution fuel g' z = Ok s ->
  exists x val, completed g x val /\ s_values s = combine (map fst (g_orig g)) (map val (range 0 (length (g_orig g)))) /\
    s_objective s = gcost g x /\
    (gfeasible g' (den z) -> gfeasible g x) /\ (goptimal g' (den z) -> goptimal g x).
Proof. exact translation. Qed.
Print Assumptions C19_translation.
(** for a program as written down, the reported values are the point *)
Theorem C19_translation_fresh : forall fuel g g' c z s, general_ok g -> fresh g -> g_objective g = Minimize -> standardize g = Ok (g', c) ->
  wfs (nr_vars g') z -> full_solution fuel g' z = Ok s ->
  map fst (s_values s) = map fst (g_orig g) /\ s_objective s = gcost g (solution_point s) /\
  (gfeasible g' (den z) -> gfeasible g (solution_point s)) /\ (goptimal g' (den z) -> goptimal g (solution_point s)).
Proof. exact translation_fresh. Qed.
Print Assumptions C19_translation_fresh.
(** the translation returns, as long as removed variables do not depend on each other in a cycle *)
Theorem C19_translation_returns : forall g z, general_ok g -> wfs (nr_vars g) z ->
  (exists rank : nat -> nat, forall o name c l j a, nth_error (g_orig g) o = Some (name, Removed (FunctionOf c l)) -> In (j, a) l ->
     (j < length (g_orig g))%nat /\ (rank j < rank o)%nat) ->
  exists fuel0, forall fuel, (fuel0 <= fuel)%nat -> exists s, full_solution fuel g z = Ok s.
Proof. exact full_solution_returns. Qed.
Print Assumptions C19_translation_returns.
Example C19_case : exists g' c s, standardize ex_general = Ok (g', c) /\ wfs (nr_vars g') [(0%nat, zq 2); (2%nat, 1)] /\
  full_solution 1 g' [(0%nat, zq 2); (2%nat, 1)] = Ok s /\ s_values s = [("x", zq 3); ("y", zq 3); ("w", 1)]%string.
Proof. exact ex_translation. Qed.

(** ** C20: solving end to end *)
Theorem C20_optimum : forall r n fuel g s, general_ok g -> fresh g -> g_objective g = Minimize ->
  solve_general r n fuel g = Ok (Solved_to s) ->
  map fst (s_values s) = map fst (g_orig g) /\ goptimal g (solution_point s) /\ s_objective s = gcost g (solution_point s).
Proof. exact fresh_optimum. Qed.
Print Assumptions C20_optimum.
(** the same for a program some of whose variables were removed before *)
Theorem C20_optimum_removed : forall r n fuel g s, general_ok g -> g_objective g = Minimize ->
  solve_general r n fuel g = Ok (Solved_to s) ->
  exists x val, goptimal g x /\ completed g x val /\
    s_values s = combine (map fst (g_orig g)) (map val (range 0 (length (g_orig g)))) /\ s_objective s = gcost g x.
Proof. exact minimum_removed. Qed.
Print Assumptions C20_optimum_removed.
Theorem C20_infeasible : forall r n fuel g, general_ok g -> solve_general r n fuel g = Ok NoSolution -> forall x, ~ gfeasible g x.
Proof. exact solve_general_infeasible. Qed.
Print Assumptions C20_infeasible.
Theorem C20_unbounded : forall r n fuel g, general_ok g -> solve_general r n fuel g = Ok NoBound -> gunbounded g.
Proof. exact solve_general_unbounded. Qed.
Print Assumptions C20_unbounded.
Theorem C20_rows_never_panics : forall n fuel g, general_ok g -> fresh g -> solve_general UseRows n fuel g <> Panic.
Proof. exact fresh_rows_no_panic. Qed.
Print Assumptions C20_rows_never_panics.
Theorem C20_rows_terminates : forall g, general_ok g -> fresh g ->
  exists fuel a, forall fuel', (fuel <= fuel')%nat -> solve_general UseRows FirstProfitable fuel' g = Ok a.
Proof. exact fresh_rows_terminates. Qed.
Print Assumptions C20_rows_terminates.
(** an optimum that exists is found *)
Theorem C20_complete : forall g x, general_ok g -> fresh g -> g_objective g = Minimize -> goptimal g x ->
  exists fuel s, solve_general UseRows FirstProfitable fuel g = Ok (Solved_to s) /\ s_objective s = gcost g x.
Proof. exact fresh_complete. Qed.
Print Assumptions C20_complete.
(** with the LU decomposition, for programs with two inequalities ([inequality_rows], SpecSizes.v) *)
Theorem C20_lu_never_panics_partial : forall n fuel g, general_ok g -> fresh g -> (2 <= inequality_rows g)%nat -> solve_general UseLU n fuel g <> Panic.
Proof. exact fresh_lu_no_panic. Qed.
Print Assumptions C20_lu_never_panics_partial.
Theorem C20_lu_terminates_partial : forall g, general_ok g -> fresh g -> (2 <= inequality_rows g)%nat ->
  exists fuel a, forall fuel', (fuel <= fuel')%nat -> solve_general UseLU FirstProfitable fuel' g = Ok a.
Proof. exact fresh_lu_terminates. Qed.
Print Assumptions C20_lu_terminates_partial.
Example C20_case : forall r n, general_ok ex_general /\ fresh ex_general /\ g_objective ex_general = Minimize /\
  (2 <= inequality_rows ex_general)%nat /\
  solve_general r n 30 ex_general =
    Ok (Solved_to (mk_solution (Q2Qc (1 # 6)) [("x", 1); ("y", Q2Qc (5 # 3)); ("w", Q2Qc (3 # 2))]%string)).
Proof. exact ex_general_solved. Qed.
Example C20_infeasible_case : forall r n, general_ok ex_general_infeasible /\ solve_general r n 30 ex_general_infeasible = Ok NoSolution.
Proof. exact ex_infeasible_solved. Qed.
Example C20_unbounded_case : forall r n, general_ok ex_general_unbounded /\ solve_general r n 30 ex_general_unbounded = Ok NoBound.
Proof. exact ex_unbounded_solved. Qed.
(** with one constraint the LU decomposition panics *)
Theorem C20_lu_one_constraint_refuted : exists g fuel, general_ok g /\ fresh g /\ g_objective g = Minimize /\
  solve_general UseLU DescentAlongObjective fuel g = Panic.
Proof. exact ex_one_constraint_panics. Qed.
Print Assumptions C20_lu_one_constraint_refuted.
(** a variable whose upper bound lies below its lower bound makes the program infeasible, which is not noticed *)
Theorem C20_empty_domain_refuted : exists g fuel s, fresh g /\ (forall x, ~ gfeasible g x) /\
  solve_general UseLU DescentAlongObjective fuel g = Ok (Solved_to s).
Proof. exact ex_empty_domain_solved. Qed.
Print Assumptions C20_empty_domain_refuted.

(** ** C21: maximization *)
(** the objective value reported is not the objective value of the reported point *)
Theorem C21_objective_value_refuted : exists g fuel s, general_ok g /\ fresh g /\ g_objective g = Maximize /\
  solve_general UseLU DescentAlongObjective fuel g = Ok (Solved_to s) /\
  goptimal g (solution_point s) /\ s_objective s <> gcost g (solution_point s).
Proof. exact ex_maximize_wrong. Qed.
Print Assumptions C21_objective_value_refuted.
(** what is reported instead, for every program: the point is optimal, and its value [v] is reported as
    [2 f - v] where [f] is the fixed cost after shifting *)
Theorem C21_point_optimal_partial : forall r n fuel g s, general_ok g -> fresh g -> g_objective g = Maximize ->
  solve_general r n fuel g = Ok (Solved_to s) ->
  map fst (s_values s) = map fst (g_orig g) /\ goptimal g (solution_point s) /\
  exists g' c, standardize g = Ok (g', c) /\ s_objective s = g_fixed g' + g_fixed g' - gcost g (solution_point s).
Proof. exact fresh_maximum. Qed.
Print Assumptions C21_point_optimal_partial.
