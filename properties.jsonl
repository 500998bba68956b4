{"id": "C01", "title": "A reported finite optimum is feasible and optimal", "statement": "If solve_relaxation on a problem {min c.x : Ax = b, x >= 0} returns FiniteOptimum(x), then x satisfies Ax = b and x >= 0 exactly, and no other x' with Ax' = b, x' >= 0 has a strictly lower cost.", "quantifier": "every problem with a finite number of rows and columns and b >= 0, every coefficient value, every number of pivots needed", "why_tests_cant": "A test compares against one known optimum of one file; optimality is a statement about all points of the feasible region of all problems.", "anchors": ["src/algorithm/two_phase/mod.rs: SolveRelaxation", "src/algorithm/two_phase/phase_one.rs", "src/algorithm/two_phase/phase_two.rs", "src/algorithm/two_phase/tableau/"]}
{"id": "C02", "title": "A reported infeasibility is correct", "statement": "If solve_relaxation returns Infeasible then there is no x >= 0 with Ax = b.", "quantifier": "every problem with b >= 0, with or without a partial initial basis", "why_tests_cant": "Non-existence of a point cannot be sampled.", "anchors": ["src/algorithm/two_phase/phase_one.rs: primal", "src/algorithm/two_phase/mod.rs"]}
{"id": "C03", "title": "A reported unboundedness is correct", "statement": "If solve_relaxation returns Unbounded then there is a feasible point and for every bound there is a feasible point with lower cost.", "quantifier": "every problem with b >= 0", "why_tests_cant": "Needs a ray valid for every step length.", "anchors": ["src/algorithm/two_phase/phase_two.rs: primal"]}
{"id": "C04", "title": "solve_relaxation does not panic on well formed problems", "statement": "On a well formed problem (at least one row, b >= 0, sorted non-zero column entries within range) none of the unwrap/expect/panic/index operations on the solve path fails: in particular the 'Artificial cost can not be unbounded' panic and the unwrap on missing pricing weights are unreachable.", "quantifier": "every well formed problem, every pivot history", "why_tests_cant": "Panics depend on the state reached after arbitrarily many pivots.", "anchors": ["src/algorithm/two_phase/phase_one.rs", "src/algorithm/two_phase/strategy/pivot_rule.rs", "src/algorithm/two_phase/tableau/inverse_maintenance/carry/mod.rs"]}
{"id": "C05", "title": "Every pivot keeps a consistent basic feasible solution", "statement": "After any number of calls to bring_into_basis with the column chosen by pricing and the row chosen by the ratio test, the maintained values satisfy: the inverse is the exact inverse of the current basis matrix, b = B^-1 * rhs >= 0, -pi = -c_B B^-1, -z = -c_B b, and the basis column set equals the row-to-column map.", "quantifier": "every problem, every basis reached, every number of pivots", "why_tests_cant": "The invariant concerns every reachable state and exact equalities.", "anchors": ["src/algorithm/two_phase/tableau/mod.rs: bring_into_basis, select_primal_pivot_row", "src/algorithm/two_phase/tableau/inverse_maintenance/carry/mod.rs: change_basis"]}
{"id": "C06", "title": "The objective value never increases", "statement": "Along any run of either phase the objective function value reported by the tableau never increases, and it strictly decreases when the pivot step length is positive; it always equals the cost of the current basic solution.", "quantifier": "every run, every pivot", "why_tests_cant": "Quantifies over all histories.", "anchors": ["src/algorithm/two_phase/tableau/mod.rs: objective_function_value", "src/algorithm/two_phase/tableau/inverse_maintenance/carry/mod.rs"]}
{"id": "C07", "title": "Rows dropped as redundant are redundant", "statement": "When phase one reports rows to be removed, each of those rows is a linear combination of the remaining rows (including the right-hand side), so the problem without those rows has exactly the same feasible points; and the inverse kept after removal is the inverse of the reduced basis.", "quantifier": "every rank deficient problem", "why_tests_cant": "Depends on the rank structure of arbitrary matrices.", "anchors": ["src/algorithm/two_phase/phase_one.rs: remove_artificial_basis_variables", "src/algorithm/two_phase/matrix_provider/filter/generic_wrapper.rs", "src/algorithm/two_phase/tableau/inverse_maintenance/carry/mod.rs: from_artificial_remove_rows", "src/algorithm/two_phase/tableau/inverse_maintenance/carry/basis_inverse_rows.rs: remove_basis_part"]}
{"id": "C08", "title": "Smallest-index pricing terminates", "statement": "phase_two::primal with the FirstProfitable pivot rule terminates on every problem from every basic feasible solution (the row rule breaks ties by smallest leaving column index, so this is Bland's rule).", "quantifier": "every problem, every starting basic feasible solution, including degenerate ones", "why_tests_cant": "Cycling only shows on particular degenerate inputs; termination is about all inputs.", "anchors": ["src/algorithm/two_phase/strategy/pivot_rule.rs: FirstProfitable", "src/algorithm/two_phase/tableau/mod.rs: select_primal_pivot_row", "src/algorithm/two_phase/phase_two.rs"]}
{"id": "C09", "title": "The default solve procedure terminates", "statement": "solve_relaxation terminates for every problem with each of the provided pivot rules.", "quantifier": "every problem and each provided pivot rule", "why_tests_cant": "A cycle shows only on particular degenerate inputs.", "anchors": ["src/algorithm/two_phase/strategy/pivot_rule.rs", "src/algorithm/two_phase/mod.rs"]}
{"id": "C10", "title": "Pricing rules stop exactly at dual feasibility", "statement": "A pivot rule returns no column exactly when no non-basic eligible column has a negative relative cost, and a returned column is non-basic, eligible, and has negative relative cost; SteepestDescentAlongVariable returns the least relative cost and SteepestDescentAlongObjective a column maximizing cost^2/weight.", "quantifier": "every tableau state, each rule", "why_tests_cant": "For all states.", "anchors": ["src/algorithm/two_phase/strategy/pivot_rule.rs"]}
{"id": "C11", "title": "Steepest edge weights are exact", "statement": "The weights that SteepestDescentAlongObjective keeps by recurrence always equal 1 + |B^-1 a_j|^2 for every eligible non-basic column j, after any number of basis changes.", "quantifier": "every problem, every pivot history", "why_tests_cant": "Recurrence over arbitrary histories.", "anchors": ["src/algorithm/two_phase/strategy/pivot_rule.rs: SteepestDescentAlongObjective"]}
{"id": "C12", "title": "The explicit row inverse is the exact inverse after any basis changes", "statement": "Starting from identity or invert, after any sequence of change_basis calls with non-zero pivots, BasisInverseRows represents the exact inverse of the current basis, and the multiplication and row/element queries return the exact products.", "quantifier": "every dimension, every sequence of basis changes", "why_tests_cant": "Arbitrary sequences.", "anchors": ["src/algorithm/two_phase/tableau/inverse_maintenance/carry/basis_inverse_rows.rs"]}
{"id": "C13", "title": "The LU decomposition represents the exact inverse", "statement": "For every non-singular basis, LUDecomposition::invert succeeds and the triangular solves return exactly B^-1 a and a B^-1; after any number of Forrest-Tomlin updates the queries still return the exact inverse products.", "quantifier": "every non-singular square matrix of every dimension, every update sequence", "why_tests_cant": "Arbitrary sparsity patterns and update sequences.", "anchors": ["src/algorithm/two_phase/tableau/inverse_maintenance/carry/lower_upper/mod.rs", "src/algorithm/two_phase/tableau/inverse_maintenance/carry/lower_upper/decomposition/mod.rs", "src/algorithm/two_phase/tableau/inverse_maintenance/carry/lower_upper/eta_file.rs"]}
{"id": "C14", "title": "The choice of basis representation does not change the answer", "statement": "solve_relaxation returns the same result with Carry<_, BasisInverseRows> as with Carry<_, LUDecomposition>.", "quantifier": "every problem", "why_tests_cant": "Equality of two runs on every input.", "anchors": ["src/algorithm/two_phase/tableau/inverse_maintenance/carry/"]}
{"id": "C15", "title": "Permutations are bijections and stay consistent with their inverse", "statement": "Each permutation type (identity, swap, rotate-to-back, full) maps indices bijectively, forward and backward are mutually inverse, applying to a list of index/value pairs keeps the values, and the sorted variants return sorted lists with the same meaning; composing swaps keeps this.", "quantifier": "every size, every index, every sequence of operations", "why_tests_cant": "All sizes and sequences.", "anchors": ["src/algorithm/two_phase/tableau/inverse_maintenance/carry/lower_upper/permutation/"]}
{"id": "C16", "title": "The computational form encodes the general form exactly", "statement": "For every general form linear program in standard shape, the points of {Ax = b, x >= 0} described by MatrixData correspond one to one to the points satisfying all constraints (equality, range, <=, >=) and bounds, with the same cost, and reconstruct_solution drops precisely the slack values.", "quantifier": "every general form program with nonnegative variables and constraints grouped by type", "why_tests_cant": "Exactness must hold for every point of every program.", "anchors": ["src/algorithm/two_phase/matrix_provider/matrix_data.rs"]}
{"id": "C17", "title": "The advertised initial pivots form an identity", "statement": "The (row, column) pairs returned by MatrixData::pivot_element_indices are sorted, distinct and within range, and each named column is the unit vector of the named row with zero cost.", "quantifier": "every MatrixData", "why_tests_cant": "All shapes.", "anchors": ["src/algorithm/two_phase/matrix_provider/matrix_data.rs: pivot_element_indices", "src/algorithm/two_phase/tableau/kind/artificial/partially.rs: new"]}
{"id": "C18", "title": "Standardizing preserves the problem", "statement": "standardize (split free variables, flip, shift, make right-hand sides non negative, reorder constraints) yields a program whose feasible points correspond one to one to those of the original, with costs related by the recorded fixed cost; afterwards variables are non-negative, right-hand sides are non-negative and constraints are grouped by type.", "quantifier": "every general form program with a minimization objective", "why_tests_cant": "Every program and point.", "anchors": ["src/data/linear_program/general_form/mod.rs: standardize, transform_variables, split_free_variables, make_b_non_negative, reorder_constraints_by_type"]}
{"id": "C19", "title": "Solutions are translated back to the original variables", "statement": "compute_full_solution_with_reduced_solution maps a feasible (optimal) point of the standardized program to a feasible (optimal) point of the original program, one value per original variable, and the reported objective value is the original cost of that point.", "quantifier": "every minimization program, every reduced solution", "why_tests_cant": "Every program and point.", "anchors": ["src/data/linear_program/general_form/mod.rs: compute_full_solution_with_reduced_solution, reshift_solution, compute_solution_value_with_bfs"]}
{"id": "C20", "title": "Solving a general form end to end is exact", "statement": "standardize + derive_matrix_data + solve_relaxation + reconstruct_solution + compute_full_solution returns an optimal solution and the optimal value of the original minimization program, or Infeasible / Unbounded only if the original program is.", "quantifier": "every consistent minimization program with non-empty variable domains", "why_tests_cant": "For all programs.", "anchors": ["src/data/linear_program/general_form/mod.rs", "src/algorithm/two_phase/mod.rs"]}
{"id": "C21", "title": "Maximization reports the right objective value", "statement": "For a maximization program, the objective value in the returned Solution equals the original objective at the returned point.", "quantifier": "every maximization program", "why_tests_cant": "Tests only contain minimization problems.", "anchors": ["src/data/linear_program/general_form/mod.rs: make_minimization_problem, compute_full_solution_with_reduced_solution"]}
{"id": "C22", "title": "Presolve never loses optimality or feasibility", "statement": "If presolve succeeds, then every optimal point of the presolved program, completed with the recorded values of removed variables, is feasible and optimal for the original program.", "quantifier": "every program, every order of rule applications", "why_tests_cant": "Interaction of rules on arbitrary programs.", "anchors": ["src/data/linear_program/general_form/presolve/", "src/data/linear_program/general_form/mod.rs: presolve"]}
{"id": "C23", "title": "Presolve verdicts are correct", "statement": "If presolve reports Infeasible the program has no feasible point, and if it reports Unbounded the program is feasible with unbounded cost.", "quantifier": "every program", "why_tests_cant": "Universal statement over points.", "anchors": ["src/data/linear_program/general_form/presolve/"]}
{"id": "C24", "title": "Presolve does not panic", "statement": "presolve returns a result (and does not panic) for every consistent program.", "quantifier": "every consistent program", "why_tests_cant": "Every program.", "anchors": ["src/data/linear_program/general_form/presolve/rule/domain_propagation.rs"]}
{"id": "C25", "title": "Presolve terminates", "statement": "The presolve loop ends for every program.", "quantifier": "every program, every queue evolution", "why_tests_cant": "Bound tightening may run arbitrarily long.", "anchors": ["src/data/linear_program/general_form/mod.rs: compute_presolve_changes", "src/data/linear_program/general_form/presolve/mod.rs: presolve_step"]}
{"id": "C26", "title": "Each presolve rule is locally sound", "statement": "Single rule applications preserve the feasible set restricted to the remaining variables: turning a one-variable constraint into bounds, substituting a fixed variable, tightening variable bounds from row activity, removing a redundant row, declaring infeasibility from row activity, and optimizing an independent column.", "quantifier": "every row, every bounds configuration, every point", "why_tests_cant": "All points of all configurations.", "anchors": ["src/data/linear_program/general_form/presolve/rule/", "src/data/linear_program/general_form/presolve/updates.rs"]}
{"id": "C27", "title": "Calling presolve again on a presolved program is harmless", "statement": "A second presolve call keeps the correspondence between active variables and original variables intact.", "quantifier": "every program and every number of presolve calls", "why_tests_cant": "Histories of calls.", "anchors": ["src/data/linear_program/general_form/mod.rs: update_values_that_remain"]}
{"id": "C28", "title": "Scaling is reversible and preserves the problem", "statement": "scale computes non-zero factors; the scaled program's feasible points are the original's with each variable divided by its column factor and costs multiplied by the cost factor; scale_back restores the program exactly, and Scaling::scale_back maps solutions back.", "quantifier": "every program, every factorization result", "why_tests_cant": "Every program and point.", "anchors": ["src/data/linear_program/general_form/presolve/scale/mod.rs", "src/data/linear_program/general_form/presolve/scale/rational/mod.rs"]}
{"id": "C29", "title": "The scaling search terminates and never makes the exponents worse", "statement": "The greedy row/column exponent search of the rational scaling terminates for every program and the total absolute exponent of each factor after scaling is at most that before.", "quantifier": "every exponent matrix", "why_tests_cant": "Search histories are unbounded.", "anchors": ["src/data/linear_program/general_form/presolve/scale/rational/mod.rs: solve_single"]}
{"id": "C30", "title": "MPS bounds are interpreted as documented", "statement": "Converting an MPS structure yields variable bounds equal to the intersection of all given bounds, with lower bound zero when no bound statement sets or removes it, and rejects a variable that is both free and bounded.", "quantifier": "every list of bound statements in every order", "why_tests_cant": "All orders and combinations.", "anchors": ["src/io/mps/convert.rs: process_bounds, process_bound, fill_in_default_lower_bounds"]}
{"id": "C31", "title": "MPS ranges are interpreted as documented", "statement": "A row with range r and right-hand side b (0 when not given) becomes the interval [b, b+|r|] for G, [b-|r|, b] for L, [b, b+|r|] for E with r>0 and [b-|r|, b] for E with r<0.", "quantifier": "every row type, sign of r and right-hand side, given or defaulted", "why_tests_cant": "All combinations.", "anchors": ["src/io/mps/convert.rs: compute_b, compute_constraint_types, compute_ranges"]}
{"id": "C32", "title": "Numbers in MPS files are read exactly", "statement": "A decimal literal (optional minus, digits, optional point and digits) within the 64 bit range is read as exactly that rational number; other texts are rejected.", "quantifier": "every text", "why_tests_cant": "All strings.", "anchors": ["src/io/mps/number/parse.rs"]}
{"id": "C33", "title": "MPS files are read faithfully", "statement": "Parsing the free format text of a linear program yields the structure with exactly the rows, columns, coefficients, right-hand sides, ranges and bounds written in the text.", "quantifier": "every well formed program text", "why_tests_cant": "All texts.", "anchors": ["src/io/mps/parse/mod.rs", "src/io/mps/parse/free.rs"]}
{"id": "C34", "title": "Sparse vectors mean what they say", "statement": "Every sparse and dense vector operation (get, set, shift, add multiple, scale, remove indices, inner product, norm) computes the mathematical operation on the represented vector and keeps the representation sorted, in range and free of zeros.", "quantifier": "every vector, every index", "why_tests_cant": "All vectors.", "anchors": ["src/data/linear_algebra/vector/sparse.rs", "src/data/linear_algebra/vector/dense.rs", "src/data/linear_algebra/matrix.rs"]}
{"id": "C35", "title": "Filtered providers show the remaining rows", "statement": "RemoveRows presents exactly the underlying problem with the named rows deleted: columns, right-hand side, row index translation, initial pivots and counts agree.", "quantifier": "every provider, every sorted set of removed rows", "why_tests_cant": "All sets.", "anchors": ["src/algorithm/two_phase/matrix_provider/filter/generic_wrapper.rs", "src/algorithm/two_phase/matrix_provider/matrix_data.rs: into_filtered"]}
{"id": "C36", "title": "Incidence matrices describe the graph", "statement": "IncidenceMatrix::new yields one column per arc with -1 at the tail and +1 at the head (removed vertices dropped, remaining indices shifted), in the order of the adjacency matrix, together with the arc values.", "quantifier": "every graph without self arcs, every set of removed vertices", "why_tests_cant": "All graphs.", "anchors": ["src/data/linear_program/network/representation.rs"]}
{"id": "C37", "title": "Solving a program read from an MPS file", "statement": "The program obtained from an MPS structure has exactly the feasible points and costs that the rows, right-hand sides, ranges and bounds of that structure describe, and solving it reports an optimum of the structure as written, or correctly that there is none.", "quantifier": "every MPS structure that a parser can produce (for the solver: with non-zero coefficients, right-hand sides for ranged rows and non-contradicting bounds), every basis inverse and pivot rule", "why_tests_cant": "All structures; a wrong sign or default changes the set of feasible points silently.", "anchors": ["src/io/mps/convert.rs: try_into", "src/data/linear_program/general_form/mod.rs", "src/algorithm/two_phase/mod.rs"]}
{"id": "C38", "title": "Solving the program written in a text", "statement": "For every text in free MPS format whose content is a linear program, parsing, converting and solving it returns values for exactly the columns of the text, which are feasible and optimal for the program as written (rows, right-hand sides, ranges, bounds and objective sense by name) with the right objective value, or reports correctly that the program is infeasible or unbounded.", "quantifier": "all texts in free MPS format and all linear programs they spell, all pivot rules and both basis inverse representations", "why_tests_cant": "The space of texts is unbounded, and errors in the parser, converter and solver can cancel or compound; tests compare a few files with known optimal values only.", "anchors": ["src/io/mps/parse/mod.rs: parse", "src/io/mps/parse/free.rs: parse", "src/io/mps/convert.rs: try_into", "src/data/linear_program/general_form/mod.rs: standardize, derive_matrix_data, compute_full_solution_with_reduced_solution", "src/algorithm/two_phase/mod.rs: solve_relaxation"]}
{"id": "C39", "title": "Shortest paths as linear programs", "statement": "Solving the shortest path program built from an adjacency matrix with source s and sink t answers the question: an optimum has the length of a shortest walk from s to t as its value and is one on the arcs of such a walk, which comes through no vertex twice, and zero on all others; Infeasible is answered only when t cannot be reached from s; Unbounded only when t can be reached and the network has a closed walk of negative length.", "quantifier": "every network without self arcs, with positive or negative lengths, every two distinct vertices, every basis inverse and pivot rule", "why_tests_cant": "All networks; the link between vertices of the linear program and paths needs an argument about flows.", "anchors": ["examples/shortest_path.rs: Primal", "src/data/linear_program/network/representation.rs: IncidenceMatrix", "src/algorithm/two_phase/mod.rs: solve_relaxation"]}
{"id": "C40", "title": "Maximum flows as linear programs", "statement": "Solving the maximum flow program built from an adjacency matrix of capacities with source s and sink t gives a maximum flow from s to t: the values of the arcs respect capacities and conservation, no flow has a larger value, the value is the negated objective and equals the smallest capacity of a cut. Infeasible and Unbounded are never answered. When all capacities are whole numbers, so are all amounts.", "quantifier": "every network without self arcs and with non-negative capacities, every two distinct vertices, every basis inverse and pivot rule", "why_tests_cant": "All networks; vertices that cannot be reached and arcs into the source are easily missed by examples.", "anchors": ["examples/max_flow.rs: Primal", "src/data/linear_program/network/representation.rs: IncidenceMatrix", "src/algorithm/two_phase/mod.rs: solve_relaxation"]}
{"id": "C41", "title": "Reading MPS files in fixed format", "statement": "Reading a text in fixed format gives exactly the program written in its fields: the names at their places in the lines, which may contain spaces, and the numbers, with no entry lost, changed or added. Converting and solving it gives the optimum of that program, or reports correctly that it is infeasible or unbounded. No text makes the reader panic.", "quantifier": "every text in fixed format, every basis inverse and pivot rule", "why_tests_cant": "Unbounded texts; which layouts of a line are read wrongly depends on the length of the line and on the place of every field in it.", "anchors": ["src/io/mps/parse/fixed.rs: parse, Fixed", "src/io/mps/parse/mod.rs: parse", "src/io/mps/mod.rs: MPS"]}
{"id": "C42", "title": "Starting from a chosen basis", "statement": "Running phase two from columns chosen by the caller, which form a basis whose variables are not negative, gives an optimum or reports correctly that the problem is unbounded; the right-hand side may have negative entries. Infeasible is never answered. There is no panic, and with the first-profitable rule there always is an answer. Whatever columns are given, an answer is only given when they exist and are independent.", "quantifier": "every problem, every choice of columns, every basis inverse and pivot rule", "why_tests_cant": "All problems and all choices of columns; whether dependent columns are noticed depends on the pivots the factorization chooses.", "anchors": ["src/algorithm/two_phase/tableau/inverse_maintenance/carry/mod.rs: from_basis", "src/algorithm/two_phase/tableau/kind/non_artificial.rs: new_with_inverse_maintainer", "src/algorithm/two_phase/phase_two.rs: primal", "examples/column_range.rs: solve"]}
{"id": "C43", "title": "Reducing column ranges as a linear program", "statement": "The column range program prints one shift per row such that nothing is added to a row and no value becomes negative, and no such shifts have a smaller sum of column ranges. The shifts are whole numbers. It does not panic and always prints an answer.", "quantifier": "every matrix with holes that has a non-negative value in each column, every basis inverse", "why_tests_cant": "All matrices; that the constructed start basis is feasible depends on which rows attain the extremes, including ties.", "anchors": ["examples/column_range.rs: main", "src/algorithm/two_phase/matrix_provider/matrix_data.rs: MatrixData", "src/algorithm/two_phase/tableau/inverse_maintenance/carry/mod.rs: from_basis"]}
{"id": "C44", "title": "Reported optima are vertices", "statement": "A reported optimum is a vertex of the set of solutions: the columns in which it is not zero are independent, there are at most as many as rows, it does not lie strictly between two other solutions, and it is the only solution that is zero wherever it is zero. This also holds when phase one removes rows, and when phase two starts from a chosen basis.", "quantifier": "every problem in computational form, every basis inverse and pivot rule", "why_tests_cant": "Ranges over all problems and pivot sequences, including degenerate ones; that no combination of the chosen columns vanishes is a statement about all vectors.", "anchors": ["src/algorithm/two_phase/mod.rs: solve_relaxation", "src/algorithm/two_phase/phase_two.rs: primal", "src/algorithm/two_phase/tableau/inverse_maintenance/carry/mod.rs: current_bfs"]}
{"id": "C45", "title": "Solving a file with presolving", "statement": "Reading a text in free or fixed format, presolving it and solving what remains gives an optimum of the program in the text, with the objective value that solving without presolving reports. Infeasible is answered only when there is no feasible point, and unbounded only when there is no best one. Such a text is never refused, there is no panic, and with the first-profitable rule there always is an answer.", "quantifier": "every text of a linear program, every basis inverse, pivot rule and build", "why_tests_cant": "All texts and all sequences of presolving rules; the tests solve a fixed set of files and compare objective values.", "anchors": ["tests/netlib/mod.rs: solve", "tests/unicamp/mod.rs: solve", "src/io/mps/parse/mod.rs: parse", "src/data/linear_program/general_form/mod.rs: presolve"]}
{"id": "C46", "title": "Importing a file by its path", "statement": "A file that can be read is imported if and only if its name has the extension mps or SIF, and then the result is that of parsing its contents; other files do not matter. A file that cannot be read, or has another extension, is reported as such. From the path to the answer the same holds as for the contents.", "quantifier": "every path, every state of the file system, every text", "why_tests_cant": "All paths, including those with dots in directories, repeated and trailing separators.", "anchors": ["src/io/mod.rs: import", "src/io/mps/mod.rs: parse", "tests/unicamp/mod.rs: solve"]}
{"id": "C47", "title": "Comparing solutions", "statement": "Two solutions that are said to be probably equal have the same objective value and the same variables, and the required fraction of the values is the same in both. The comparison is symmetric, and a solution is probably equal to itself in any order.", "quantifier": "every two solutions and every threshold", "why_tests_cant": "All pairs of solutions; the order of the variables and repeated names matter only through hash maps.", "anchors": ["src/data/linear_program/solution.rs: is_probably_equal_to"]}
{"id": "C48", "title": "Internal assertions hold", "statement": "A build that evaluates all internal debug assertions of the solver gives exactly the answer of a build that evaluates none: no assertion ever fails on the way from the problem to the answer, whatever the pivot rule and the representation of the basis inverse.", "quantifier": "every problem with at least two rows left after removing redundant ones (one row with the explicit inverse and no complete starting basis), every pivot rule, both basis inverses, every number of turns", "why_tests_cant": "The tests evaluate the assertions on the states of a handful of problems; the claim is about every state of every run.", "anchors": ["src/algorithm/two_phase/tableau/mod.rs: Tableau", "src/algorithm/two_phase/tableau/inverse_maintenance/carry/mod.rs: Carry", "src/algorithm/two_phase/tableau/inverse_maintenance/carry/lower_upper/mod.rs: LUDecomposition", "src/algorithm/two_phase/tableau/inverse_maintenance/carry/basis_inverse_rows.rs: BasisInverseRows", "src/algorithm/two_phase/phase_one.rs", "src/algorithm/two_phase/phase_two.rs"]}
{"id": "C49", "title": "Presolving in a debug build", "statement": "A build that evaluates all internal debug assertions while presolving does exactly as a build that evaluates none: no assertion fails, whatever program is presolved.", "quantifier": "every consistent program as a user writes it down, every number of presolving steps", "why_tests_cant": "The assertions are about counters, queues and cached sums after any sequence of rules; the tests evaluate them on a few short sequences.", "anchors": ["src/data/linear_program/general_form/presolve/mod.rs: Index, presolve_step", "src/data/linear_program/general_form/presolve/updates.rs: Updates", "src/data/linear_program/general_form/presolve/counters.rs: Counters", "src/data/linear_program/general_form/presolve/rule/slack.rs: presolve_slack", "src/data/linear_program/general_form/presolve/rule/domain_propagation.rs", "src/data/linear_program/general_form/mod.rs: GeneralForm::presolve"]}
{"id": "C50", "title": "Solving a general form in a debug build", "statement": "A build that evaluates all internal debug assertions, from writing a program down and standardizing it to translating the solution back, gives exactly the answer of a build that evaluates none.", "quantifier": "every consistent program as a user writes it down, every pivot rule, both basis inverses, every number of turns, with or without presolving", "why_tests_cant": "The assertions are about the shape of every intermediate program, matrix and solution vector; the tests evaluate them for a few programs, none of them degenerate in shape.", "anchors": ["src/data/linear_program/general_form/mod.rs: GeneralForm::new, standardize, derive_matrix_data, compute_full_solution_with_reduced_solution", "src/algorithm/two_phase/matrix_provider/matrix_data.rs: MatrixData::new, reconstruct_solution", "src/algorithm/two_phase/matrix_provider/filter/generic_wrapper.rs: RemoveRows", "src/data/linear_algebra/vector/sparse.rs: remove_indices, shift_value, set, get", "src/data/linear_algebra/matrix.rs: from_major_ordered_tuples, concatenate_major_indices"]}
{"id": "C51", "title": "Solving the text of a file in a debug build", "statement": "A build that evaluates all internal debug assertions, from reading the text of a file and converting it to the answer, gives exactly the answer of a build that evaluates none: a text that is read and solved without assertions is read and solved with them, and no answer ever differs.", "quantifier": "every text in free or fixed format, every pivot rule, both basis inverses, every number of turns, with or without presolving", "why_tests_cant": "The assertions are about every line and every intermediate table of every file; the test files are well-formed and never reach the ones that fail.", "anchors": ["src/io/mps/parse/mod.rs: parse_column_section, build_row_index, build_column_index, is_part_of_same_section", "src/io/mps/convert.rs: TryInto<GeneralForm>, process_bounds, compute_constraint_info, compute_b", "src/data/linear_program/general_form/mod.rs: GeneralForm::new", "src/data/linear_algebra/matrix.rs: from_major_ordered_tuples"]}
{"id": "C52", "title": "Errors point to the line at fault", "statement": "When the text of a file has a mistake in its syntax, the error tells the number and the contents of the line at fault: that line exists in the text, no text that starts with the same lines up to it is read, and the lines before it can be continued to a text without such a mistake. What is printed names that line, and the section it is in.", "quantifier": "every text, in free and in fixed format", "why_tests_cant": "Mistakes are possible on every line of every file and in every field; the tests check that a handful of wrong lines are rejected, not what is said about them.", "anchors": ["src/io/error.rs: Import, Parse, with_location, wrap, Display", "src/io/mps/parse/mod.rs: parse_program_name, parse_objsense_section, parse_row_section, parse_column_section, parse_optional_section, parse_bounds_section, into_lines", "src/io/mps/parse/free.rs", "src/io/mps/parse/fixed.rs"]}
{"id": "C53", "title": "Errors can be printed", "statement": "The error about any file that is not read can be printed, and its causes can be followed to their end.", "quantifier": "every text, in free and in fixed format", "why_tests_cant": "No test prints an error; printing recurses into causes, and the kinds of errors are those of all texts that are not read.", "anchors": ["src/io/error.rs: Display for Import, Display for Parse, Display for Inconsistency, Error::source", "src/io/mps/parse/mod.rs"]}
{"id": "C54", "title": "Answers to related files agree", "statement": "The answer depends on the program only: its outcome (no solution, the optimal cost, or no bound) is the same for all spellings, formats, builds, representations and pivot rules, with and without presolving; it does not change when rows and columns get other names, when what the file says comes in another order or when a constraint is multiplied by a positive number; it is multiplied when the costs are, a minimum becoming a maximum if the number is negative; it never gets worse when constraints are removed or bounds loosened, and it does not change when they all follow from what is left; it does not change when a variable is measured in other units, and changes by the cost of a number when that number is added to a variable everywhere. When the program has one optimum, the values are the same in all these cases too. The reported objective value follows.", "quantifier": "all pairs of files related in these ways, all texts of them and all ways of solving them that give an answer", "why_tests_cant": "Each test solves one text in one way and compares with a number; the property is about pairs of texts, and the two runs of the solver have nothing in common but the program.", "anchors": ["tests/netlib/mod.rs: solve", "src/io/mps/parse/mod.rs: parse", "src/io/mps/convert.rs", "src/data/linear_program/general_form/mod.rs: presolve, derive_matrix_data, compute_full_solution_with_reduced_solution", "src/algorithm/two_phase/mod.rs: solve_relaxation"]}
{"id": "C55", "title": "Reported optima of programs and files are vertices", "statement": "The values reported as the optimum of a program in general form, or of a file, are a vertex of its set of solutions: they do not lie strictly between two other solutions.", "quantifier": "every consistent program in general form, every text of a solvable file in free and fixed format, every build, basis inverse and pivot rule", "why_tests_cant": "Quantifies over all pairs of solutions of all programs; tests compare the optimum with one expected value, and any point of an optimal face has that value.", "anchors": ["src/data/linear_program/general_form/mod.rs: standardize, derive_matrix_data, compute_full_solution_with_reduced_solution", "src/data/linear_program/general_form/mod.rs: transform_variables, split_free_variables", "src/algorithm/two_phase/mod.rs: solve_relaxation"]}
{"id": "C56", "title": "Every answer has a proof that can be checked by itself", "statement": "Whatever the answer is, there is a certificate for it that proves it without the solver: for an optimum one multiplier for each constraint, with which the constraints add up to the bound that the reported point attains; for an infeasible program multipliers with which they add up to a contradiction; for an unbounded one a direction that leaves no constraint and in which the cost gets better. At the end of a phase the multipliers are the numbers in the first row of the tableau.", "quantifier": "every matrix provider and every program in general form that meet the contract, every file in free or fixed format whose content meets the rules, minima and maxima, every basis inverse and pivot rule", "why_tests_cant": "Quantifies over all programs; tests compare with one expected optimum, and most do not look at the first row of the tableau at all.", "anchors": ["src/algorithm/two_phase/mod.rs: solve_relaxation", "src/algorithm/two_phase/phase_one.rs: primal", "src/algorithm/two_phase/phase_two.rs: primal", "src/algorithm/two_phase/tableau/inverse_maintenance/carry/mod.rs: minus_pi, minus_objective", "src/algorithm/two_phase/tableau/mod.rs: relative_cost"]}
{"id": "C57", "title": "Calls on a program can be repeated and mixed", "statement": "Standardizing a program that was standardized before changes nothing, so solving it again gives the same answer; and a program can be presolved before or after it has been standardized.", "quantifier": "every well formed program, every number of standardize calls, every basis inverse and pivot rule", "why_tests_cant": "Histories of calls: the tests standardize each program once, always after presolving.", "anchors": ["src/data/linear_program/general_form/mod.rs: standardize, transform_variables, make_b_non_negative, make_minimization_problem, reorder_constraints_by_type", "src/data/linear_program/general_form/mod.rs: presolve, update_values_that_remain, remove_rows_and_columns"]}
{"id": "C58", "title": "Numbers stay small", "statement": "When the numbers of a problem are multiples of 1/d with numerators of at most K, the numerators and denominators of the values, multipliers, columns and rows of the basis inverse that the solver computes for m constraints are at most m! * K^m, and those of the objective value and the relative costs at most (m+1) * K times that, however many steps are made. The reported optimum is that small too. The same holds of the answers about linear programs with ranges, bounds and free variables and about files: the values and the objective value of a reported solution are bounded by an explicit number that depends only on the sizes of the data and the numbers of rows and variables. With presolving the reported value of a minimization is bounded by the same number, and the optimum found from a chosen feasible basis is as small as that of a whole run.", "quantifier": "every problem, linear program and file with data of such a size, every basis inverse and pivot rule, every state of a run, every number of steps", "why_tests_cant": "Exact numbers could grow with every pivot; that they do not is a statement about all runs of any length.", "anchors": ["src/algorithm/two_phase/tableau/inverse_maintenance/carry/mod.rs: change_basis, update_b, update_minus_pi_and_obj, generate_column", "src/algorithm/two_phase/tableau/mod.rs: relative_cost, objective_function_value, current_bfs", "src/algorithm/two_phase/strategy/pivot_rule.rs: SteepestDescentAlongObjective"]}
{"id": "C59", "title": "Presolving programs of limits or of demands is right", "statement": "If all constraints of a linear program are upper limits on combinations of the variables with coefficients that are not negative, or all are lower limits on such combinations, if there is room in the constraints and in the ranges of the variables, and if every variable counts in the objective, then presolving is right whatever happens in it: points of what remains are points of the program with the same cost, nothing is lost, a reported optimum is one, infeasibility is never reported, unboundedness only if it is so, nothing panics and it ends. Presolving and solving reports only right answers and with the rows of the inverse always reaches one. In particular an optimum is found for every packing and every covering program, given as an object or as a file.", "quantifier": "every such program and every file with such a program in free or fixed format, every pivot rule and basis inverse, every number of steps", "why_tests_cant": "Presolving is wrong for some programs; that it is right for all of a class, in whatever order the rules are applied, is a statement about unboundedly many runs.", "anchors": ["src/data/linear_program/general_form/mod.rs: GeneralForm::presolve, compute_presolve_changes", "src/data/linear_program/general_form/presolve/mod.rs: Index, Change", "src/data/linear_program/general_form/presolve/mod.rs: presolve_step", "src/data/linear_program/general_form/presolve/rule/"]}
{"id": "C60", "title": "The number of steps is known in advance", "statement": "From the number m of constraints and the number n of variables alone it can be said how many steps are enough. The loop of the presolver makes at most (4n+2m+1)(n+m+1)(2m+1) iterations, whatever the program is, and what is left is not larger than the program. With the first profitable column as pivot rule and the rows of the inverse, each of the two searches of the solver makes at most (4(m+n))^(2m+n) iterations; the answer after them is the answer for every larger number. With an LU decomposition so it is if there are at least two inequalities; with presolving before, if the run of the presolver is a safe one, which can be computed within the same number of iterations, and for packing and covering programs always. The same holds of the text of a file, with the numbers of its rows and columns. The searches for shortest paths and maximum flows in a network with v vertices and e arcs end within (v+e)^v and (v+3e)^(v+e) iterations (rows of the inverse for paths; for flows, non-negative capacities, no arc into the source, vertices that are all joined to source or sink, and for the LU decomposition at least two rows), with a shortest path or a maximum flow if there is one, and the shifts of the columns of a table with h rows and w columns come out within (h+2w+2hw)^(2hw) iterations.", "quantifier": "every well formed program, every file in free or fixed format, every network and table, every number of steps larger than the bound", "why_tests_cant": "A bound on running times of all inputs: tests show only that some runs end.", "anchors": ["src/algorithm/two_phase/phase_two.rs: primal", "src/algorithm/two_phase/phase_one.rs: primal", "src/algorithm/two_phase/strategy/pivot_rule.rs: FirstProfitable", "src/data/linear_program/general_form/mod.rs: compute_presolve_changes", "src/data/linear_program/general_form/presolve/mod.rs: presolve_step", "src/data/linear_program/general_form/presolve/queues.rs: PresolveQueues", "examples/shortest_path.rs: Primal", "examples/max_flow.rs: Primal", "examples/column_range.rs: main"]}
{"id": "C61", "title": "A program and its dual get matching answers", "statement": "Solve a linear program that is written as a minimization, and its dual, written as a maximization whose columns are the constraints of the first one. Then the answers match: both have an optimum and the costs are equal, or one has no bound and the other no solution, or neither has a solution. The optimal values of the dual are prices of the constraints: only constraints that hold with equality have a price other than zero, the prices prove that the optimum is one, and with other right-hand sides no solution costs less than the prices predict.", "quantifier": "all pairs of a file and its dual (rows of all three kinds, variables that are not negative, not positive or free, no ranges), all texts of them in free and fixed format, all builds, representations of the basis inverse, pivot rules and numbers of steps, with presolving on safe runs or without; for the prices all other right-hand sides and all solutions with them", "why_tests_cant": "It relates two runs on different programs, for all programs; a test compares the two answers for one pair at a time.", "anchors": ["src/algorithm/two_phase/mod.rs: solve_relaxation", "src/io/mps/mod.rs", "src/data/linear_program/general_form/mod.rs", "tests/netlib/mod.rs: solve"]}
{"id": "C62", "title": "Answers to programs between two others lie on the right side", "statement": "If the right-hand sides of a linear program lie the same part of the way between those of two others that are equal otherwise, then it has a solution if both have one, and its minimum is at most the number that lies that part of the way between theirs. If its costs lie between those of two others, its minimum is at least the number between theirs. For maxima it is the other way round, and unbounded programs count as infinitely good.", "quantifier": "all triples of files that are related in this way (ranges and bounds of all kinds included), all parts of the way, all texts, builds, representations, pivot rules and numbers of steps, with presolving on safe runs or without", "why_tests_cant": "It relates three runs on different programs, for all programs.", "anchors": ["src/algorithm/two_phase/mod.rs: solve_relaxation", "src/io/mps/mod.rs", "src/data/linear_program/general_form/mod.rs", "tests/netlib/mod.rs: solve"]}
{"id": "C63", "title": "Networks have whole answers", "statement": "If every coefficient of a linear program is 0, 1 or -1, the constraints can be put on two sides so that two coefficients of a variable have different signs in constraints of the same side and the same sign in constraints of different sides (assignment, transport, flow and path problems are like this), and the right-hand sides, ranges and bounds are whole numbers, then every value of a reported optimum is a whole number, whatever the costs are, also if variables have no bounds, with and without presolving. So the reported optimum is the best solution in whole numbers too, which is what the integer variables of a file ask for.", "quantifier": "all consistent general form programs of this kind and all files that describe one, in free and fixed format, all ways to put the constraints on sides, all builds, representations, pivot rules and numbers of steps", "why_tests_cant": "It is about every optimum of every such program, and depends on answers being vertices of the program, also after free variables were split and bounds were moved.", "anchors": ["src/algorithm/two_phase/mod.rs: solve_relaxation", "src/data/linear_program/general_form/mod.rs: derive_matrix_data, split_free_variables, compute_full_solution_with_reduced_solution", "src/io/mps/mod.rs", "src/data/linear_program/network"]}
{"id": "C64", "title": "Two programs in one file are solved like each alone", "statement": "If a file consists of two linear programs that share neither constraints nor variables, with the costs added, then its outcome is that of the two put together: infeasible if one of them is, otherwise unbounded if one of them is, and otherwise the sum of the two optimal costs. The reported values are optimal for each of the two, and if one of them has one optimum, its variables get the values that are reported for it alone.", "quantifier": "all files of linear programs that consist of two others, in any order, in free and fixed format, all builds, representations and pivot rules, with presolving in safe runs", "why_tests_cant": "It compares three runs, which take different pivots, for every pair of programs and every order in which their rows and columns are mixed.", "anchors": ["src/algorithm/two_phase/mod.rs: solve_relaxation", "src/algorithm/two_phase/phase_two.rs: primal", "src/data/linear_program/general_form/mod.rs: derive_matrix_data, compute_full_solution_with_reduced_solution", "src/io/mps/mod.rs"]}
{"id": "C65", "title": "Reported optima have prices", "statement": "For every reported optimum of a linear program there is a price for each constraint: a constraint that is not at one of its limits is free, the others have the sign that says in which direction they hold the optimum back, and a variable that is between its bounds costs exactly what it is worth at these prices. Feasible values with such prices are optimal. With other right-hand sides the answer is never better than the prices say, and another variable that costs at least what it is worth at these prices does not change the outcome.", "quantifier": "all files of linear programs, with ranges and all kinds of bounds, minima and maxima, in free and fixed format, all builds, representations and pivot rules, with presolving in safe runs; all other right-hand sides and all additional variables", "why_tests_cant": "It compares the answer with those to all programs with other right-hand sides or an additional variable.", "anchors": ["src/algorithm/two_phase/mod.rs: solve_relaxation", "src/algorithm/two_phase/tableau/mod.rs", "src/data/linear_program/general_form/mod.rs: derive_matrix_data, compute_full_solution_with_reduced_solution", "src/io/mps/mod.rs"]}
{"id": "C66", "title": "Programs may be solved by cases", "statement": "If the solutions of a linear program are those of a second and those of a third program, at the same costs, then its answer is the better one of the answers to these two, and the values reported for the better one are optimal for it. The same holds for any number of programs into which its solutions are divided. Constraints and bounds that are added to a program do not change the outcome if the reported values meet them.", "quantifier": "all files of linear programs and all ways to divide their solutions into two or any other number of programs (overlapping or not, some of them possibly empty or unbounded), minima and maxima, in free and fixed format, all builds, representations and pivot rules, with presolving in safe runs", "why_tests_cant": "It compares the answers to a program and to all its cases, for all programs and all divisions into cases.", "anchors": ["src/algorithm/two_phase/mod.rs: solve_relaxation", "src/data/linear_program/general_form/mod.rs: derive_matrix_data, compute_full_solution_with_reduced_solution", "src/io/mps/mod.rs"]}
{"id": "C67", "title": "Usual reformulations do not change the answer", "statement": "Writing an inequality as an equation with an additional nonnegative variable that makes up the difference does not change the outcome of a linear program, and the values reported for the other variables are optimal for the original. The same holds for writing a free variable as the difference of two nonnegative ones, with the difference of their reported values as its value. It also holds for writing an equation, or a constraint with a range, as two inequalities, and for writing an upper bound on a variable as an inequality. Writing the value of a fixed variable in its place changes the optimal cost by what the variable costs and nothing else.", "quantifier": "all files of linear programs, all constraints, upper bounds and free variables in them (for the additional variable: inequalities without a range), minima and maxima, in free and fixed format, all builds, representations and pivot rules, with presolving in safe runs", "why_tests_cant": "It compares the answers to two differently written programs for all programs and all their constraints and variables.", "anchors": ["src/algorithm/two_phase/mod.rs: solve_relaxation", "src/data/linear_program/general_form/mod.rs: standardize, derive_matrix_data, compute_full_solution_with_reduced_solution", "src/io/mps/mod.rs"]}
{"id": "C68", "title": "Relaxations bound integer programs", "statement": "The solver ignores that variables are integer. Still no integer solution of a file is better than the answer to it, and there is none if the answer is that there is no solution; reported values that are whole numbers where they have to be are an optimal integer solution. If the costs are whole numbers for integer variables, the bound may be rounded to a whole number. Bounding an integer variable by n in one program and by n+1 from below in another keeps all integer solutions, and so do dividing these programs again and adding a constraint that all integer solutions satisfy, such as one with whole coefficients for integer variables whose right-hand side is rounded: the best one of the answers to all of them is a bound on the integer solutions, so that a solution whose cost is near it is as near to the best integer solution, an answer that is whole where it has to be and no worse than the others is an optimal integer solution, and so is one that was found in another way and is no worse than these answers, and there is no integer solution if none of them has a solution.", "quantifier": "all files with integer columns (by markers or by bounds of type BV, LI and UI), all trees of such divisions and cuts, minima and maxima, in free and fixed format, all builds, representations and pivot rules, with presolving in safe runs; a lower bound n+1 is not negative or there is a lower bound already, since otherwise it would replace the default", "why_tests_cant": "It is about all integer solutions of all programs and about all trees of branches.", "anchors": ["src/algorithm/two_phase/mod.rs: solve_relaxation", "src/data/linear_program/elements.rs: VariableType", "src/io/mps/mod.rs", "src/io/mps/convert.rs: process_bounds", "src/data/linear_program/general_form/mod.rs: derive_matrix_data"]}
