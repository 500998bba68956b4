{
 "claims": [
  {
   "property": "C01",
   "status": "proved",
   "theorems": [
    "Verif.PropSolver.C01_finite_optimum",
    "Verif.PropSolver.fuel_irrelevant"
   ],
   "note": "For every provider meeting the documented contract, both basis inverse representations, all four pivot rules."
  },
  {
   "property": "C02",
   "status": "proved",
   "theorems": [
    "Verif.PropSolver.C02_infeasible"
   ],
   "note": "As C01."
  },
  {
   "property": "C03",
   "status": "proved",
   "theorems": [
    "Verif.PropSolver.C03_unbounded"
   ],
   "note": "As C01."
  },
  {
   "property": "C04",
   "status": "partial",
   "theorems": [
    "Verif.PropSolver.C04_rows_never_panics",
    "Verif.PropSolver.C04_lu_never_panics_partial",
    "Verif.PropSolver.C04_lu_one_row_refuted"
   ],
   "note": "Proved in full for BasisInverseRows. For LUDecomposition proved when at least two rows are independent; refuted for one row (change_basis indexes an empty vector), witness in C04_lu_one_row_refuted."
  },
  {
   "property": "C05",
   "status": "proved",
   "theorems": [
    "Verif.PropSolver.C05_every_state_consistent"
   ],
   "note": "Every state of both phases, of artificial variable removal and after row removal."
  },
  {
   "property": "C06",
   "status": "proved",
   "theorems": [
    "Verif.PropSolver.C06_step_does_not_increase",
    "Verif.PropSolver.C06_objective_is_cost_of_solution"
   ],
   "note": "Every step of both phases."
  },
  {
   "property": "C07",
   "status": "proved",
   "theorems": [
    "Verif.PropSolver.C07_removed_rows_redundant",
    "Verif.PropSolver.C07_redundant_rows_are_implied",
    "Verif.PropSolver.C07_inverse_after_removal"
   ],
   "note": ""
  },
  {
   "property": "C08",
   "status": "proved",
   "theorems": [
    "Verif.PropSolver.C08_rows_terminates",
    "Verif.PropSolver.C08_lu_terminates",
    "Verif.PropSolver.C08_rows_within",
    "Verif.PropSolver.C08_lu_within",
    "Verif.PropSolver.C08_loop_terminates"
   ],
   "note": "For LUDecomposition two independent rows are needed, as for C04: with one row the program panics instead of looping."
  },
  {
   "property": "C09",
   "status": "partial",
   "theorems": [
    "Verif.PropSolver.C09_default_rule_terminates_refuted",
    "Verif.PropSolver.C09_memory_rule_terminates_refuted",
    "Verif.PropSolver.C09_largest_coefficient_terminates_refuted",
    "Verif.PropSolver.C09_rows_nondegenerate_partial",
    "Verif.PropSolver.C09_lu_nondegenerate_partial",
    "Verif.PropSolver.C09_rows_endless_stalls_partial",
    "Verif.PropSolver.C09_lu_endless_stalls_partial"
   ],
   "note": "False of the code for three of the four rules, including the default one: refuted with concrete problems that have a finite optimum (default and memory rule). Proved for every rule: a problem that is nowhere degenerate is solved within a number of turns given by its size, and a run that does not end has made a step in place at a degenerate state. Termination of the fourth rule on every problem is C08."
  },
  {
   "property": "C10",
   "status": "proved",
   "theorems": [
    "Verif.PropSolver.C10_selection",
    "Verif.PropSolver.C10_first_profitable_smallest_index",
    "Verif.PropSolver.C10_variable_least_cost",
    "Verif.PropSolver.C10_objective_steepest"
   ],
   "note": ""
  },
  {
   "property": "C11",
   "status": "proved",
   "theorems": [
    "Verif.PropSolver.C11_weights_exact"
   ],
   "note": ""
  },
  {
   "property": "C12",
   "status": "proved",
   "theorems": [
    "Verif.PropSolver.C12_rows_exact",
    "Verif.PropSolver.C12_rows_total",
    "Verif.PropSolver.C12_rows_only_invertible"
   ],
   "note": ""
  },
  {
   "property": "C13",
   "status": "partial",
   "theorems": [
    "Verif.PropSolver.C13_lu_exact",
    "Verif.PropSolver.C13_lu_total",
    "Verif.PropSolver.C13_lu_only_invertible",
    "Verif.PropSolver.C13_lu_one_row_refuted"
   ],
   "note": "Exactness for every history; totality for invert in every dimension and for updates from dimension two. Refuted for updates in dimension one."
  },
  {
   "property": "C14",
   "status": "partial",
   "theorems": [
    "Verif.PropSolver.C14_same_result_partial",
    "Verif.PropSolver.C14_same_when_both_return",
    "Verif.PropSolver.C14_same_result_refuted"
   ],
   "note": "Equal results whenever both return; equal including non-return with two independent rows; refuted with one row, where only the LU decomposition panics."
  },
  {
   "property": "C15",
   "status": "partial",
   "theorems": [
    "Verif.PropSolver.C15_swap",
    "Verif.PropSolver.C15_rotate_to_back",
    "Verif.PropSolver.C15_full",
    "Verif.PropSolver.C15_full_swap",
    "Verif.PropSolver.C15_full_rotate_refuted",
    "Verif.PropRotate.C15_full_rotate",
    "Verif.PropRotate.C15_full_rotate_partial"
   ],
   "note": "All permutation types and operations on the solve path. For Full::rotate_right_from, which only tests use, proved exactly when the two directions undo each other afterwards, and refuted otherwise."
  },
  {
   "property": "C16",
   "status": "proved",
   "theorems": [
    "Verif.PropGeneral.C16_points_correspond",
    "Verif.PropGeneral.C16_same_cost",
    "Verif.PropGeneral.C16_reconstruct_drops_slacks",
    "Verif.PropGeneral.C16_meets_solver_contract"
   ],
   "note": ""
  },
  {
   "property": "C17",
   "status": "proved",
   "theorems": [
    "Verif.PropGeneral.C17_pivots_sorted_distinct",
    "Verif.PropGeneral.C17_pivots_unit_columns"
   ],
   "note": "For every MatrixData record."
  },
  {
   "property": "C18",
   "status": "proved",
   "theorems": [
    "Verif.PropGeneral.C18_standardize"
   ],
   "note": "With free variables the correspondence is onto; without them it is one to one."
  },
  {
   "property": "C19",
   "status": "proved",
   "theorems": [
    "Verif.PropGeneral.C19_translation",
    "Verif.PropGeneral.C19_translation_fresh",
    "Verif.PropGeneral.C19_translation_returns"
   ],
   "note": ""
  },
  {
   "property": "C20",
   "status": "partial",
   "theorems": [
    "Verif.PropGeneral.C20_optimum",
    "Verif.PropGeneral.C20_optimum_removed",
    "Verif.PropGeneral.C20_infeasible",
    "Verif.PropGeneral.C20_unbounded",
    "Verif.PropGeneral.C20_rows_never_panics",
    "Verif.PropGeneral.C20_rows_terminates",
    "Verif.PropGeneral.C20_complete",
    "Verif.PropGeneral.C20_lu_never_panics_partial",
    "Verif.PropGeneral.C20_lu_terminates_partial",
    "Verif.PropGeneral.C20_lu_one_constraint_refuted",
    "Verif.PropGeneral.C20_empty_domain_refuted"
   ],
   "note": "Answers exact for all choices; no panic and termination with BasisInverseRows, and with LU for programs with two inequality constraints. Refuted for one-constraint programs with LU (panic) and, as a boundary of the hypotheses, for empty variable domains."
  },
  {
   "property": "C21",
   "status": "partial",
   "theorems": [
    "Verif.PropGeneral.C21_objective_value_refuted",
    "Verif.PropGeneral.C21_point_optimal_partial"
   ],
   "note": "Refuted as stated; the returned point is proved optimal and the reported value is characterized."
  },
  {
   "property": "C34",
   "status": "proved",
   "theorems": [
    "Verif.PropData.C34_equal_vectors_equal_lists",
    "Verif.PropData.C34_get",
    "Verif.PropData.C34_set",
    "Verif.PropData.C34_set_zero",
    "Verif.PropData.C34_shift",
    "Verif.PropData.C34_add_multiple",
    "Verif.PropData.C34_multiply",
    "Verif.PropData.C34_divide",
    "Verif.PropData.C34_inner_product",
    "Verif.PropData.C34_inner_product_with_dense",
    "Verif.PropData.C34_squared_norm",
    "Verif.PropData.C34_unit_vector",
    "Verif.PropData.C34_from_values",
    "Verif.PropData.C34_extend",
    "Verif.PropData.C34_push",
    "Verif.PropData.C34_remove_indices",
    "Verif.PropData.C34_dense_remove_indices",
    "Verif.PropData.C34_matrix_transpose",
    "Verif.PropData.C34_matrix_transpose_panics",
    "Verif.PropData.C34_matrix_concatenate",
    "Verif.PropData.C34_matrix_remove_major",
    "Verif.PropData.C34_matrix_remove_minor",
    "Verif.PropData.C34_matrix_set",
    "Verif.PropData.C34_matrix_size",
    "Verif.PropData.C34_matrix_identity",
    "Verif.PropData.C34_matrix_rows_from_values",
    "Verif.PropData.C34_matrix_columns_from_values",
    "Verif.PropData.C34_matrix_change_row_signs"
   ],
   "note": "Vectors and matrices. The values handed to set/push/scale must be nonzero, as the documentation asks."
  },
  {
   "property": "C35",
   "status": "partial",
   "theorems": [
    "Verif.PropData.C35_underlying_index",
    "Verif.PropData.C35_delete_row",
    "Verif.PropData.C35_delete_row_debug_refuted",
    "Verif.PropData.C35_right_hand_side",
    "Verif.PropData.C35_columns",
    "Verif.PropData.C35_matrix_data_columns",
    "Verif.PropData.C35_matrix_data_inequality_refuted",
    "Verif.PropData.C35_pivots_complete",
    "Verif.PropData.C35_pivots_sorted",
    "Verif.PropData.C35_pivots_are_unit_columns",
    "Verif.PropData.C35_bound_rows",
    "Verif.PropData.C35_counts"
   ],
   "note": "Proved for release builds and for every column type that filters correctly; delete_row panics in every debug build, and the columns of MatrixData filter wrongly when a row of an inequality constraint is removed (both shown as _refuted)."
  },
  {
   "property": "C36",
   "status": "proved",
   "theorems": [
    "Verif.PropData.C36_incidence_matrix",
    "Verif.PropData.C36_arcs",
    "Verif.PropData.C36_entry",
    "Verif.PropData.C36_direction_arithmetic",
    "Verif.PropData.C36_filter"
   ],
   "note": ""
  },
  {
   "property": "C22",
   "status": "partial",
   "theorems": [
    "Verif.PropPresolve.C22_optimality_refuted",
    "Verif.PropPresolve.C22_feasibility_refuted",
    "Verif.PropPresolve.C22_two_slacks_refuted",
    "Verif.PropPresolve.C22_dropped_row_refuted",
    "Verif.PropSafe.C22_safe_partial",
    "Verif.PropSafe.C22_safe_nothing_lost_partial",
    "Verif.PropSafe.C22_safe_solution_partial",
    "Verif.PropSafe.C22_safe_pipeline_partial"
   ],
   "note": "Refuted on the code as it is, with four witnesses of different causes. Proved for every consistent program and every run in which none of four described situations occurs (safe_run, SafeRun.v): remaining program, solution found by presolving alone, and presolving followed by solving. Missing: the other runs, which is where the refutations are."
  },
  {
   "property": "C23",
   "status": "partial",
   "theorems": [
    "Verif.PropPresolve.C23_infeasible_refuted",
    "Verif.PropPresolve.C23_unbounded_refuted",
    "Verif.PropSafe.C23_safe_infeasible_partial",
    "Verif.PropSafe.C23_safe_unbounded_partial"
   ],
   "note": "Refuted on the code as it is, for both verdicts. Proved for every safe run (SafeRun.v); for Unbounded on the condition that there is a feasible point."
  },
  {
   "property": "C24",
   "status": "partial",
   "theorems": [
    "Verif.PropPresolve.C24_refuted",
    "Verif.PropSafe.C24_safe_partial",
    "Verif.PropSafe.C24_safe_result_partial",
    "Verif.PropSafe.C24_safe_pipeline_partial",
    "Verif.PropSafe.C24_safe_lu_partial",
    "Verif.PropSafe.C24_safe_lu_result_partial",
    "Verif.PropSafe.C24_safe_decided",
    "Verif.PropPreDebug.C24_remaining",
    "Verif.PropPreDebug.C24_result",
    "Verif.PropPreDebug.C24_only_panic",
    "Verif.PropPreDebug.C24_inequalities",
    "Verif.PropPreDebug.C24_inequalities_solved",
    "Verif.PropPreDebug.C24_lu_partial"
   ],
   "note": "Refuted on the code as it is. In every run presolving reaches a result, leaves a consistent program and panics only at a range constraint whose right-hand side is its smallest possible value (C24_only_panic); programs with only <= and >= constraints never panic and get an answer. For every safe run (SafeRun.v) there is no panic at all. With the LU decomposition for programs that keep two inequality constraints."
  },
  {
   "property": "C27",
   "status": "partial",
   "theorems": [
    "Verif.PropPresolve.C27_refuted",
    "Verif.PropPresolve.C27_endless_refuted",
    "Verif.PropSafe.C27_variables_kept_partial"
   ],
   "note": "Refuted on the code as it is, for calls after a variable has been removed: the second call may change the optimum, or never return. Proved for every number of safe calls that remove no variable, followed by one more safe call."
  },
  {
   "property": "C25",
   "status": "proved",
   "theorems": [
    "Verif.PropPresolve.C25_loop_ends",
    "Verif.PropPresolve.C25_loop_ends_from_every_state"
   ],
   "note": "The loop of presolving ends for every program and from every state. The evaluation of removed variables after the loop is not part of this statement."
  },
  {
   "property": "C26",
   "status": "partial",
   "theorems": [
    "Verif.PropPresolve.C26_bound_constraint",
    "Verif.PropPresolve.C26_new_bound",
    "Verif.PropPresolve.C26_new_activity_bound",
    "Verif.PropPresolve.C26_fixed_variable",
    "Verif.PropPresolve.C26_activity",
    "Verif.PropPresolve.C26_row_decision",
    "Verif.PropPresolve.C26_propagated_bound",
    "Verif.PropPresolve.C26_first_bound",
    "Verif.PropPresolve.C26_empty_constraint",
    "Verif.PropPresolve.C26_independent_column",
    "Verif.PropPresolve.C26_unbounded_column",
    "Verif.PropPresolve.C26_free_column",
    "Verif.PropPresolve.C26_no_value",
    "Verif.PropPresolve.C26_slack_row_partial",
    "Verif.PropPresolve.C26_slack_bound_partial",
    "Verif.PropPresolve.C26_slack_refuted"
   ],
   "note": "All decisions and bounds are proved for every point; the removal of slack variables is proved in the cases where it is sound and refuted otherwise."
  },
  {
   "property": "C30",
   "status": "proved",
   "theorems": [
    "Verif.PropMps.C30_intersection",
    "Verif.PropMps.C30_lower_is_stated",
    "Verif.PropMps.C30_upper_is_stated",
    "Verif.PropMps.C30_free_and_bounded_rejected",
    "Verif.PropMps.C30_others_accepted",
    "Verif.PropMps.C30_integer"
   ],
   "note": "The intersection, the default lower bound, rejection exactly of conflicting programs (together with C31_decides) and the integer flag. MI is read as \"not positive\" and PL as \"not negative\", as documented in the code."
  },
  {
   "property": "C31",
   "status": "partial",
   "theorems": [
    "Verif.PropMps.C31_range_partial",
    "Verif.PropMps.C31_no_range",
    "Verif.PropMps.C31_default_partial",
    "Verif.PropMps.C31_default_greater_refuted",
    "Verif.PropMps.C31_default_equal_refuted",
    "Verif.PropMps.C31_default_negative_refuted",
    "Verif.PropMps.C31_decides",
    "Verif.PropMps.C31_repeated_rhs_refuted"
   ],
   "note": "Proved for rows with a right-hand side. With the default right-hand side the interval is wrong for greater or equal rows, equality rows and negative ranges (refuted on the code as it is)."
  },
  {
   "property": "C32",
   "status": "partial",
   "theorems": [
    "Verif.PropMps.C32_exact",
    "Verif.PropMps.C32_accepted_partial",
    "Verif.PropMps.C32_rejected_partial",
    "Verif.PropMps.C32_foreign_character_rejected",
    "Verif.PropMps.C32_other_texts_refuted",
    "Verif.PropMps.C32_empty_refuted",
    "Verif.PropMps.C32_overflow_refuted"
   ],
   "note": "Exactness is proved for all literals that fit; what else is accepted is characterised, and that other texts are rejected is refuted on the code as it is."
  },
  {
   "property": "C37",
   "status": "partial",
   "theorems": [
    "Verif.PropMps.C37_meaning",
    "Verif.PropMps.C37_coefficients",
    "Verif.PropMps.C37_contract",
    "Verif.PropMps.C37_optimum",
    "Verif.PropMps.C37_maximum_partial",
    "Verif.PropMps.C37_infeasible",
    "Verif.PropMps.C37_unbounded",
    "Verif.PropMps.C37_terminates"
   ],
   "note": "Proved for minimization. For maximization the reported objective value is wrong, see C21."
  },
  {
   "property": "C33",
   "status": "proved",
   "theorems": [
    "Verif.PropParse.C33_read",
    "Verif.PropParse.C33_accepted_partial",
    "Verif.PropParse.C33_repeated_cost_refuted",
    "Verif.PropParse.C33_split_column_refuted"
   ],
   "note": "Every text in free format with a well formed content is read to exactly that content; conversely accepted texts have the content that is read (C33_accepted_partial, builds that check overflow). Two malformed kinds of texts that are accepted are recorded as refutations."
  },
  {
   "property": "C28",
   "status": "partial",
   "theorems": [
    "Verif.PropScale.C28_factors",
    "Verif.PropScale.C28_points",
    "Verif.PropScale.C28_no_point_lost",
    "Verif.PropScale.C28_consistent",
    "Verif.PropScale.C28_restored",
    "Verif.PropScale.C28_solution",
    "Verif.PropScale.C28_solved",
    "Verif.PropScale.C28_none",
    "Verif.PropScale.C28_unbounded",
    "Verif.PropScale.C28_complete",
    "Verif.PropScale.C28_returns_partial",
    "Verif.PropScale.C28_unit_values_refuted",
    "Verif.PropScale.C28_no_variables_refuted"
   ],
   "note": "Everything is proved for whatever scaling the code returns on a well formed program. It returns for every program with a variable and a value with a factor; without either the code panics (refuted)."
  },
  {
   "property": "C29",
   "status": "partial",
   "theorems": [
    "Verif.PropScale.C29_terminates",
    "Verif.PropScale.C29_exponents_refuted",
    "Verif.PropScale.C29_exponents_partial"
   ],
   "note": "Termination is proved for every program. The bound on the exponents is refuted for the code as it is, because columns are changed in the wrong direction; the bound holds for the direction the search had in mind (C29_exponents_partial)."
  },
  {
   "property": "C38",
   "status": "partial",
   "theorems": [
    "Verif.PropText.C38_optimum",
    "Verif.PropText.C38_maximum_partial",
    "Verif.PropText.C38_infeasible",
    "Verif.PropText.C38_unbounded",
    "Verif.PropText.C38_never_panics",
    "Verif.PropText.C38_terminates",
    "Verif.PropText.C38_complete"
   ],
   "note": "Proved for minimization and for the points of maximization; the reported objective value of a maximization is wrong, see C21. Without presolving, which is refuted in C22."
  },
  {
   "property": "C39",
   "status": "proved",
   "theorems": [
    "Verif.PropPath.C39_builds",
    "Verif.PropPath.C39_shortest",
    "Verif.PropPath.C39_path",
    "Verif.PropPath.C39_optimum_no_negative_cycle",
    "Verif.PropPath.C39_no_path",
    "Verif.PropPath.C39_negative_cycle",
    "Verif.PropPath.C39_rows_never_panics",
    "Verif.PropPath.C39_decided",
    "Verif.PropPath.C39_same_vertex_refuted",
    "Verif.PropPath.C39_first_vertex_refuted"
   ],
   "note": "For distinct vertices. With the same vertex as source and sink the program asks for something else or cannot be built (recorded as refutations)."
  },
  {
   "property": "C40",
   "status": "partial",
   "theorems": [
    "Verif.PropFlow.C40_builds_partial",
    "Verif.PropFlow.C40_maximum_partial",
    "Verif.PropFlow.C40_never_infeasible_partial",
    "Verif.PropFlow.C40_never_unbounded_partial",
    "Verif.PropFlow.C40_never_panics_partial",
    "Verif.PropFlow.C40_decided_partial",
    "Verif.PropFlow.C40_whole_partial",
    "Verif.PropFlow.C40_minimum_cut",
    "Verif.PropFlow.C40_cuts_bound",
    "Verif.PropFlow.C40_arcs_into_source_refuted",
    "Verif.PropFlow.C40_vertex_alone_refuted"
   ],
   "note": "Proved for networks in which no arc leads into the source and every vertex is joined to the source or the sink. Both conditions are needed: refuted on the code as it is without either."
  },
  {
   "property": "C41",
   "status": "partial",
   "theorems": [
    "Verif.PropFixed.C41_read_partial",
    "Verif.PropFixed.C41_accepted_partial",
    "Verif.PropFixed.C41_optimum_partial",
    "Verif.PropFixed.C41_infeasible_partial",
    "Verif.PropFixed.C41_unbounded_partial",
    "Verif.PropFixed.C41_terminates_partial",
    "Verif.PropFixed.C41_second_pair_refuted",
    "Verif.PropFixed.C41_short_bound_refuted",
    "Verif.PropFixed.C41_row_type_refuted",
    "Verif.PropFixed.C41_left_number_refuted",
    "Verif.PropFixed.C41_empty_number_refuted"
   ],
   "note": "Proved for texts with names at the left and numbers at the right of their fields, and with the last name of a bound without value padded to its width. Other layouts of fixed format are refuted on the code as it is: a second pair is dropped silently, or the reader panics or rejects. Only what is in the fields is accepted, up to the two gaps of C33."
  },
  {
   "property": "C42",
   "status": "partial",
   "theorems": [
    "Verif.PropWarm.C42_optimum",
    "Verif.PropWarm.C42_unbounded",
    "Verif.PropWarm.C42_never_infeasible",
    "Verif.PropWarm.C42_no_panic",
    "Verif.PropWarm.C42_terminates",
    "Verif.PropWarm.C42_only_bases",
    "Verif.PropWarm.C42_infeasible_basis_refuted",
    "Verif.PropWarm.C42_one_row_refuted",
    "Verif.PropWarm.C42_no_row_refuted"
   ],
   "note": "Proved from two rows with the LU decomposition and from one row with the explicit inverse; refuted for fewer rows, where the program panics. A basis with a negative value is accepted and leads to an answer that is not feasible."
  },
  {
   "property": "C43",
   "status": "proved",
   "theorems": [
    "Verif.PropRange.C43_best",
    "Verif.PropRange.C43_whole",
    "Verif.PropRange.C43_no_panic",
    "Verif.PropRange.C43_terminates",
    "Verif.PropRange.C43_column_of_holes_refuted",
    "Verif.PropRange.C43_negative_value_refuted"
   ],
   "note": "For matrices with a value in each column and no negative values, as the program asks for. The comment in the program asks for a value in each row instead; for such a matrix the program panics."
  },
  {
   "property": "C44",
   "status": "proved",
   "theorems": [
    "Verif.PropVertex.C44_vertex",
    "Verif.PropVertex.C44_start_vertex",
    "Verif.PropVertex.C44_extreme",
    "Verif.PropVertex.C44_start_extreme",
    "Verif.PropVertex.C44_determined"
   ],
   "note": "For problems in computational form."
  },
  {
   "property": "C45",
   "status": "partial",
   "theorems": [
    "Verif.PropTextPre.C45_optimum_partial",
    "Verif.PropTextPre.C45_maximum_partial",
    "Verif.PropTextPre.C45_infeasible_partial",
    "Verif.PropTextPre.C45_unbounded_partial",
    "Verif.PropTextPre.C45_never_panics_partial",
    "Verif.PropTextPre.C45_complete_partial",
    "Verif.PropTextPre.C45_terminates_partial",
    "Verif.PropTextPre.C45_agrees_partial",
    "Verif.PropTextPre.C45_refuted",
    "Verif.PropTextPre.C45_fixed_optimum_partial",
    "Verif.PropTextPre.C45_fixed_infeasible_partial",
    "Verif.PropTextPre.C45_fixed_unbounded_partial",
    "Verif.PropTextPre.C45_fixed_complete_partial"
   ],
   "note": "Proved for every text of which the run of presolving is safe (SafeRun.v, computed from the text); unbounded on the condition that there is a feasible point, the objective value for minimization. Missing: the other runs, for which a text is refuted on the code as it is. C59 has files for which every run is safe."
  },
  {
   "property": "C46",
   "status": "partial",
   "theorems": [
    "Verif.PropImport.C46_import",
    "Verif.PropImport.C46_imported",
    "Verif.PropImport.C46_one_file",
    "Verif.PropImport.C46_file_error",
    "Verif.PropImport.C46_contents",
    "Verif.PropImport.C46_optimum_partial",
    "Verif.PropImport.C46_complete_partial"
   ],
   "note": "The import itself is proved in full; from the path to the optimum the condition of C45 is needed."
  },
  {
   "property": "C47",
   "status": "partial",
   "theorems": [
    "Verif.PropCompare.C47_sound",
    "Verif.PropCompare.C47_symmetric",
    "Verif.PropCompare.C47_same",
    "Verif.PropCompare.C47_counted_partial",
    "Verif.PropCompare.C47_few_variables_refuted"
   ],
   "note": "Proved except for the values of solutions with fewer than ten variables, which the code does not look at (refuted)."
  },
  {
   "property": "C48",
   "status": "proved",
   "theorems": [
    "Verif.PropDebug.C48_factorized",
    "Verif.PropDebug.C48_explicit",
    "Verif.PropDebug.C48_factorized_no_failure",
    "Verif.PropDebug.C48_explicit_no_failure",
    "Verif.PropDebug.C48_answers",
    "Verif.PropDebug.C48_one_row_basis_refuted",
    "Verif.PropDebug.C48_all_redundant_refuted",
    "Verif.PropDebug.C48_no_rows_refuted"
   ],
   "note": "For every problem that meets the contract of a matrix provider, with two rows left for the LU decomposition and one for the explicit inverse. The excluded sizes are refuted: with one row and a starting basis, with only redundant rows and without rows an assertion fails. Assertions inside a matrix provider, of the general form and of presolving are not part of it."
  },
  {
   "property": "C49",
   "status": "partial",
   "theorems": [
    "Verif.PropPreDebug.C49_release",
    "Verif.PropPreDebug.C49_or_panics",
    "Verif.PropPreDebug.C49_partial",
    "Verif.PropPreDebug.C49_refuted"
   ],
   "note": "41 of the 42 assertions never fail, in any run; on any program whatever, a debug build panics or does as a release build. The remaining assertion (rule/slack.rs:75) fails on a program that a release build solves: refuted."
  },
  {
   "property": "C50",
   "status": "partial",
   "theorems": [
    "Verif.PropPipeDebug.C50_partial",
    "Verif.PropPipeDebug.C50_no_panic",
    "Verif.PropPipeDebug.C50_new",
    "Verif.PropPipeDebug.C50_presolved_partial",
    "Verif.PropPipeDebug.C50_filter",
    "Verif.PropPipeDebug.C50_answers",
    "Verif.PropPipeDebug.C50_presolved_answers",
    "Verif.PropPipeDebug.C50_no_variables_refuted",
    "Verif.PropPipeDebug.C50_nothing_said_refuted"
   ],
   "note": "For every program with a variable and enough inequalities (with the explicit inverse: one inequality or coefficient; with the LU decomposition: two inequalities). After presolving the assertion of C49_refuted is left out. Refuted without variables and when nothing is said about the variables: a release build solves these programs, a debug build panics."
  },
  {
   "property": "C51",
   "status": "partial",
   "theorems": [
    "Verif.PropTextDebug.C51_partial",
    "Verif.PropTextDebug.C51_fixed_partial",
    "Verif.PropTextDebug.C51_answers",
    "Verif.PropTextDebug.C51_fixed_answers",
    "Verif.PropTextDebug.C51_presolved_answers",
    "Verif.PropTextDebug.C51_or_panics",
    "Verif.PropTextDebug.C51_fixed_or_panics",
    "Verif.PropTextDebug.C51_reads",
    "Verif.PropTextDebug.C51_fixed_reads",
    "Verif.PropTextDebug.C51_marker_refuted",
    "Verif.PropTextDebug.C51_zero_refuted",
    "Verif.PropTextDebug.C51_twice_refuted",
    "Verif.PropTextDebug.C51_split_refuted"
   ],
   "note": "For the texts of programs with a column, alternating markers and enough inequalities. On any text whatever: an answer of a debug build is that of a release build, reading panics or does as in a release build, and the texts that both read are characterised. Refuted for texts that a release build solves: an end marker without a start, a zero coefficient, a repeated right-hand side of a range row, a column in two places."
  },
  {
   "property": "C52",
   "status": "partial",
   "theorems": [
    "Verif.PropErrors.C52_answers",
    "Verif.PropErrors.C52_fixed_answers",
    "Verif.PropErrors.C52_partial",
    "Verif.PropErrors.C52_fixed_partial",
    "Verif.PropErrors.C52_told_partial",
    "Verif.PropErrors.C52_fixed_told_partial",
    "Verif.PropErrors.C52_refuted",
    "Verif.PropErrors.C52_later_refuted",
    "Verif.PropErrors.C52_fixed_later_refuted",
    "Verif.PropErrors.C52_shown_refuted",
    "Verif.PropErrors.C52_section_refuted"
   ],
   "note": "Every line that an error tells of is the first line at fault, for all texts of both formats; the mistakes of SpecErr.v (head, rows and columns of a file) are told with exactly their line. Refuted: mistakes after the columns are never told with their line; an error about a value that is not a number tells of no line; a known line is not printed; the wrong section is named."
  },
  {
   "property": "C53",
   "status": "partial",
   "theorems": [
    "Verif.PropErrors.C53_partial",
    "Verif.PropErrors.C53_fixed_partial",
    "Verif.PropErrors.C53_causes",
    "Verif.PropErrors.C53_never",
    "Verif.PropErrors.C53_fixed_never",
    "Verif.PropErrors.C53_refuted",
    "Verif.PropErrors.C53_causes_refuted"
   ],
   "note": "Errors about the syntax can be printed, and the causes of all errors but inconsistencies end. Refuted: the error about an inconsistent file never finishes printing, for every such file, and an inconsistency is its own cause."
  },
  {
   "property": "C54",
   "status": "partial",
   "theorems": [
    "Verif.PropOrder.C54_order",
    "Verif.PropOrder.C54_same",
    "Verif.PropOrder.C54_relaxed",
    "Verif.PropOrder.C54_renamed",
    "Verif.PropOrder.C54_renamed_reported",
    "Verif.PropOrder.C54_scaled_row",
    "Verif.PropOrder.C54_scaled_cost",
    "Verif.PropOrder.C54_answers",
    "Verif.PropOrder.C54_refuted",
    "Verif.PropUnits.C54_one_optimum",
    "Verif.PropUnits.C54_one_optimum_renamed",
    "Verif.PropUnits.C54_implied",
    "Verif.PropUnits.C54_units",
    "Verif.PropUnits.C54_one_optimum_units",
    "Verif.PropUnits.C54_substituted",
    "Verif.PropUnits.C54_one_optimum_substituted",
    "Verif.PropFuel.C54_steps",
    "Verif.PropFuel.C54_steps_presolve",
    "Verif.PropFuel.C54_one_answer",
    "Verif.PropFuel.C54_one_answer_presolve"
   ],
   "note": "Proved for all pairs of files and all ways of solving them (presolving: safe runs) for the outcome, that is, the verdict and the cost of the values found, and for the reported objective value of a minimization under renaming. Refuted for the reported objective value of a maximization."
  },
  {
   "property": "C55",
   "status": "partial",
   "theorems": [
    "Verif.PropVertex.C55_general_partial",
    "Verif.PropVertex.C55_text_partial",
    "Verif.PropVertex.C55_fixed_text_partial",
    "Verif.PropVertex.C55_refuted"
   ],
   "note": "Proved when every variable has a bound on one side at least. Refuted with a free variable: it is split in two non-negative ones, and a vertex of the split program need not be one of the program (minimizing zero over x <= 5 reports 0)."
  },
  {
   "property": "C57",
   "status": "partial",
   "theorems": [
    "Verif.PropCalls.C57_again_partial",
    "Verif.PropCalls.C57_shaped_partial",
    "Verif.PropCalls.C57_solved_partial",
    "Verif.PropCalls.C57_presolve_refuted",
    "Verif.PropCalls.C57_presolve_panics_refuted"
   ],
   "note": "Standardizing again is proved to change nothing. Presolving after standardizing is refuted: the values it stores are those of the moved variables, and it panics when a variable was split."
  },
  {
   "property": "C56",
   "status": "proved",
   "theorems": [
    "Verif.PropDual.C56_bound_proved",
    "Verif.PropDual.C56_infeasible_proved",
    "Verif.PropDual.C56_unbounded_proved",
    "Verif.PropDual.C56_optimum",
    "Verif.PropDual.C56_infeasible",
    "Verif.PropDual.C56_unbounded",
    "Verif.PropDual.C56_stopped",
    "Verif.PropDual.C56_stopped_infeasible",
    "Verif.PropDual.C56_duality",
    "Verif.PropDual.C56_general_bound_proved",
    "Verif.PropDual.C56_general_infeasible_proved",
    "Verif.PropDual.C56_general_unbounded_proved",
    "Verif.PropDual.C56_every_optimum",
    "Verif.PropDual.C56_every_infeasible",
    "Verif.PropDual.C56_every_unbounded",
    "Verif.PropDual.C56_general_optimum",
    "Verif.PropDual.C56_general_infeasible",
    "Verif.PropDual.C56_general_unbounded",
    "Verif.PropFDual.C56_file_bound_proved",
    "Verif.PropFDual.C56_file_infeasible_proved",
    "Verif.PropFDual.C56_file_unbounded_proved",
    "Verif.PropFDual.C56_file_every_optimum",
    "Verif.PropFDual.C56_file_every_infeasible",
    "Verif.PropFDual.C56_file_every_unbounded",
    "Verif.PropFDual.C56_text_optimum",
    "Verif.PropFDual.C56_text_infeasible",
    "Verif.PropFDual.C56_text_unbounded",
    "Verif.PropFDual.C56_fixed_optimum",
    "Verif.PropFDual.C56_fixed_infeasible",
    "Verif.PropFDual.C56_fixed_unbounded"
   ],
   "note": "The certificates are stated by sums of products only; what they prove is shown next to their existence."
  },
  {
   "property": "C58",
   "status": "proved",
   "theorems": [
    "Verif.PropSize.C58_state",
    "Verif.PropSize.C58_weights",
    "Verif.PropSize.C58_optimum",
    "Verif.PropSize.C58_general",
    "Verif.PropSize.C58_text",
    "Verif.PropSize.C58_fixed_text",
    "Verif.PropPreSize.C58_start",
    "Verif.PropPreSize.C58_value",
    "Verif.PropPreSize.C58_presolved",
    "Verif.PropPreSize.C58_presolved_text",
    "Verif.PropPreSize.C58_presolved_fixed_text"
   ],
   "note": "For every state of every run, in both phases and after rows were removed; for the answers about linear programs and about files in free and fixed format too. With presolving for the reported value, of minimizations in safe runs; from a chosen feasible basis for the optimum. The numbers inside of the factors of the LU decomposition are not part of the claim."
  },
  {
   "property": "C59",
   "status": "proved",
   "theorems": [
    "Verif.PropSides.C59_points",
    "Verif.PropSides.C59_nothing_lost",
    "Verif.PropSides.C59_solution",
    "Verif.PropSides.C59_feasible",
    "Verif.PropSides.C59_never_infeasible",
    "Verif.PropSides.C59_unbounded",
    "Verif.PropSides.C59_never_panics",
    "Verif.PropSides.C59_result",
    "Verif.PropSides.C59_answer",
    "Verif.PropSides.C59_pipeline",
    "Verif.PropSides.C59_lu",
    "Verif.PropSides.C59_packing",
    "Verif.PropSides.C59_covering",
    "Verif.PropSides.C59_without_costs_refuted",
    "Verif.PropSides.C59_file_answer",
    "Verif.PropSides.C59_file_never_panics",
    "Verif.PropSides.C59_file_solved",
    "Verif.PropSides.C59_fixed_answer",
    "Verif.PropSides.C59_fixed_solved"
   ],
   "note": "No condition on the run. That every variable counts in the objective is a condition of the claim, and C59_without_costs_refuted shows that it is needed. For a maximization the point is right, the reported objective value has the wrong sign (C21). With the LU decomposition an answer is reached if at least two inequalities remain after presolving."
  },
  {
   "property": "C60",
   "status": "proved",
   "theorems": [
    "Verif.PropSteps.C60_presolve_loop",
    "Verif.PropSteps.C60_presolve_settled",
    "Verif.PropSteps.C60_presolve_smaller",
    "Verif.PropSteps.C60_safe",
    "Verif.PropSteps.C60_rows",
    "Verif.PropSteps.C60_lu",
    "Verif.PropSteps.C60_both",
    "Verif.PropSteps.C60_packing",
    "Verif.PropSteps.C60_covering",
    "Verif.PropSteps.C60_text",
    "Verif.PropSteps.C60_fixed_text",
    "Verif.PropSteps.C60_text_presolved",
    "Verif.PropSteps.C60_sided_text",
    "Verif.PropSteps.C60_sided_fixed_text",
    "Verif.PropNetSteps.C60_shortest_path",
    "Verif.PropNetSteps.C60_shortest_path_settled",
    "Verif.PropNetSteps.C60_max_flow",
    "Verif.PropNetSteps.C60_column_range"
   ],
   "note": "The bound is one on iterations, not on time. The rule of the claim is FirstProfitable; the other rules, among them the one that solve_relaxation uses, may go on forever (C09). Solving with the LU decomposition is claimed for at least two inequalities, presolving and solving for safe runs (C22 to C25) and for the programs of C59, as the property says."
  },
  {
   "property": "C61",
   "status": "proved",
   "theorems": [
    "Verif.PropPair.C61_outcomes",
    "Verif.PropPair.C61_weak",
    "Verif.PropPair.C61_slack",
    "Verif.PropPair.C61_proves",
    "Verif.PropPair.C61_prices"
   ],
   "note": "The costs that are compared are those of the reported values; for the maximization the reported objective value has the wrong sign (C21). Answers with presolving count for safe runs, as in C54."
  },
  {
   "property": "C62",
   "status": "proved",
   "theorems": [
    "Verif.PropPair.C62_rhs",
    "Verif.PropPair.C62_costs"
   ],
   "note": "The costs that are compared are those of the reported values. Answers with presolving count for safe runs, as in C54."
  },
  {
   "property": "C63",
   "status": "proved",
   "theorems": [
    "Verif.PropWhole.C63_general",
    "Verif.PropWhole.C63_best",
    "Verif.PropWhole.C63_text",
    "Verif.PropWhole.C63_fixed_text",
    "Verif.PropWhole.C63_text_best",
    "Verif.PropWhole.C63_fixed_text_best",
    "Verif.PropWhole.C63_sides_needed",
    "Verif.PropWhole.C63_presolved",
    "Verif.PropWhole.C63_presolved_text",
    "Verif.PropWhole.C63_presolved_fixed_text",
    "Verif.PropWhole.C63_presolved_best",
    "Verif.PropWhole.C63_presolved_text_best"
   ],
   "note": "Whole values with and without presolving in every run; the best whole solution with presolving in the runs that C22 proves right. C63_sides_needed shows that the condition about the two sides is needed."
  },
  {
   "property": "C64",
   "status": "proved",
   "theorems": [
    "Verif.PropBeside.C64_outcome",
    "Verif.PropBeside.C64_optimal",
    "Verif.PropBeside.C64_values"
   ],
   "note": "The costs that are compared are those of the reported values (for a maximization the reported objective value has the wrong sign, C21). Answers with presolving count for safe runs, as in C54."
  },
  {
   "property": "C65",
   "status": "proved",
   "theorems": [
    "Verif.PropPrice.C65_prices",
    "Verif.PropPrice.C65_optimal",
    "Verif.PropPrice.C65_other_rhs",
    "Verif.PropPrice.C65_extra_column"
   ],
   "note": "The prices exist; the code does not report them. The costs that are compared are those of the reported values (for a maximization the reported objective value has the wrong sign, C21). Answers with presolving count for safe runs, as in C54."
  },
  {
   "property": "C66",
   "status": "proved",
   "theorems": [
    "Verif.PropCases.C66_outcome",
    "Verif.PropCases.C66_values",
    "Verif.PropCases.C66_many",
    "Verif.PropCases.C66_many_values",
    "Verif.PropCases.C66_kept"
   ],
   "note": "The costs that are compared are those of the reported values (for a maximization the reported objective value has the wrong sign, C21). Answers with presolving count for safe runs, as in C54."
  },
  {
   "property": "C67",
   "status": "proved",
   "theorems": [
    "Verif.PropReform.C67_slack",
    "Verif.PropReform.C67_slack_values",
    "Verif.PropReform.C67_parts",
    "Verif.PropReform.C67_parts_values",
    "Verif.PropReform.C67_two_rows",
    "Verif.PropReform.C67_two_rows_values",
    "Verif.PropReform.C67_bound_row",
    "Verif.PropReform.C67_bound_row_values",
    "Verif.PropReform.C67_value",
    "Verif.PropReform.C67_value_values"
   ],
   "note": "The costs that are compared are those of the reported values (for a maximization the reported objective value has the wrong sign, C21). Answers with presolving count for safe runs, as in C54."
  },
  {
   "property": "C68",
   "status": "proved",
   "theorems": [
    "Verif.PropInteger.C68_bound",
    "Verif.PropInteger.C68_none",
    "Verif.PropInteger.C68_whole",
    "Verif.PropInteger.C68_rounded",
    "Verif.PropInteger.C68_split",
    "Verif.PropInteger.C68_again",
    "Verif.PropInteger.C68_branches_bound",
    "Verif.PropInteger.C68_branches_optimal",
    "Verif.PropInteger.C68_incumbent",
    "Verif.PropInteger.C68_gap",
    "Verif.PropInteger.C68_branches_none",
    "Verif.PropInteger.C68_cut",
    "Verif.PropInteger.C68_rounded_cut"
   ],
   "note": "The answers are those of C54, with or without presolving in safe runs; costs are those of the reported values (for a maximization the reported objective value has the wrong sign, C21). An answer that the relaxation is unbounded says nothing about integer solutions."
  }
 ]
}