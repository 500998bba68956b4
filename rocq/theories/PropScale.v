(** * C28 and C29: scaling *)
From Verif Require Import SpecScale ScaleR ScaleRunP ScaleQ ExponentP ExScale ExMet.
Local Open Scope Qc_scope.

(** ** C28 *)
(** The factors are positive *)
Theorem C28_factors : forall fac fuel g g' sc, general_ok g -> factorizes fac g -> scale fac fuel g = Ok (g', sc) -> positive_scaling g sc.
Proof. exact found_positive. Qed.
Print Assumptions C28_factors.
(** The points of the scaled program are those of the program with every variable divided by its factor, and costs are multiplied *)
Theorem C28_points : forall fac fuel g g' sc, general_ok g -> factorizes fac g -> scale fac fuel g = Ok (g', sc) ->
  g_objective g' = g_objective g /\ nr_vars g' = nr_vars g /\ g_orig g' = g_orig g /\
  forall x, (gfeasible g' x <-> gfeasible g (scaled_point sc x)) /\
    gcost g' x - g_fixed g' = sc_cost sc * (gcost g (scaled_point sc x) - g_fixed g) /\
    (goptimal g' x <-> goptimal g (scaled_point sc x)).
Proof. exact found_points. Qed.
Print Assumptions C28_points.
Theorem C28_no_point_lost : forall fac fuel g g' sc, general_ok g -> factorizes fac g -> scale fac fuel g = Ok (g', sc) ->
  forall x, gfeasible g x -> exists y, gfeasible g' y /\ forall j, (j < nr_vars g)%nat -> scaled_point sc y j = x j.
Proof. exact found_onto. Qed.
Print Assumptions C28_no_point_lost.
Theorem C28_consistent : forall fac fuel g g' sc, general_ok g -> factorizes fac g -> scale fac fuel g = Ok (g', sc) -> general_ok g' /\ (fresh g -> fresh g').
Proof. exact found_consistent. Qed.
Print Assumptions C28_consistent.
(** Scaling back restores the program *)
Theorem C28_restored : forall fac fuel g g' sc, general_ok g -> factorizes fac g -> scale fac fuel g = Ok (g', sc) -> scale_back g' sc = Ok g.
Proof. exact found_restored. Qed.
Print Assumptions C28_restored.
(** and scaling a vector back gives the point of the original program *)
Theorem C28_solution : forall fac fuel g g' sc v, general_ok g -> factorizes fac g -> scale fac fuel g = Ok (g', sc) -> wfs (nr_vars g) v ->
  exists w, scale_back_solution sc v = Ok w /\ wfs (nr_vars g) w /\
    forall j, (j < nr_vars g)%nat -> den w j = scaled_point sc (den v) j.
Proof. exact found_solution. Qed.
Print Assumptions C28_solution.
(** Solving the scaled program solves the program *)
Theorem C28_solved : forall fac fuel g g' sc r rule fuel' s, general_ok g -> fresh g -> g_objective g = Minimize -> factorizes fac g -> scale fac fuel g = Ok (g', sc) ->
  solve_general r rule fuel' g' = Ok (Solved_to s) ->
  goptimal g (scaled_point sc (solution_point s)) /\ s_objective s - g_fixed g = sc_cost sc * (gcost g (scaled_point sc (solution_point s)) - g_fixed g).
Proof. exact found_solved. Qed.
Print Assumptions C28_solved.
Theorem C28_none : forall fac fuel g g' sc r rule fuel', general_ok g -> factorizes fac g -> scale fac fuel g = Ok (g', sc) ->
  solve_general r rule fuel' g' = Ok NoSolution -> forall x, ~ gfeasible g x.
Proof. exact found_none. Qed.
Print Assumptions C28_none.
Theorem C28_unbounded : forall fac fuel g g' sc r rule fuel', general_ok g -> factorizes fac g -> scale fac fuel g = Ok (g', sc) ->
  solve_general r rule fuel' g' = Ok NoBound -> gunbounded g.
Proof. exact found_unbounded. Qed.
Print Assumptions C28_unbounded.
Example C28_others_met : (general_ok ex_scale_none /\ factorizes small ex_scale_none /\ exists g' sc, scale small 300 ex_scale_none = Ok (g', sc) /\ forall r n, solve_general r n 300 g' = Ok NoSolution) /\
  (general_ok ex_scale_unbounded /\ factorizes small ex_scale_unbounded /\ exists g' sc, scale small 300 ex_scale_unbounded = Ok (g', sc) /\ forall r n, solve_general r n 300 g' = Ok NoBound).
Proof. exact scaled_cases. Qed.
(** An optimum of the program is found by solving the scaled program *)
Theorem C28_complete : forall fac fuel g g' sc x, general_ok g -> fresh g -> g_objective g = Minimize -> factorizes fac g -> scale fac fuel g = Ok (g', sc) -> goptimal g x ->
  exists fuel' s, solve_general UseRows FirstProfitable fuel' g' = Ok (Solved_to s) /\ gcost g (scaled_point sc (solution_point s)) = gcost g x.
Proof. exact found_complete. Qed.
Print Assumptions C28_complete.
Example C28_met : exists g' sc s, general_ok ex_scale_solve /\ fresh ex_scale_solve /\ g_objective ex_scale_solve = Minimize /\ factorizes small ex_scale_solve /\ scale small 300 ex_scale_solve = Ok (g', sc) /\ nthq (sc_cols sc) 0 <> 1 /\
  solve_general UseRows FirstProfitable 300 g' = Ok (Solved_to s).
Proof. exact ex_solved. Qed.
(** A scaling is found when there are variables and a factor other than one; what is missing from the property is shown below *)
Theorem C28_returns_partial : forall fac g v, general_ok g -> (0 < nr_vars g)%nat -> In v (values g) -> fac v <> [] ->
  exists fuel0 g' sc, forall fuel, (fuel0 <= fuel)%nat -> scale fac fuel g = Ok (g', sc).
Proof. exact scale_returns. Qed.
Print Assumptions C28_returns_partial.
(** Scaling panics when all values are zero, one or minus one *)
Theorem C28_unit_values_refuted : exists fac g, general_ok g /\ fresh g /\ (0 < nr_vars g)%nat /\ (forall v, In v (values g) -> prime_factorization (fac v) v) /\ forall fuel, scale fac fuel g = Panic.
Proof. exact unit_panics. Qed.
Print Assumptions C28_unit_values_refuted.
(** and when there are no variables *)
Theorem C28_no_variables_refuted : exists fac g, general_ok g /\ fresh g /\ (forall v, In v (values g) -> prime_factorization (fac v) v) /\ (exists v, In v (values g) /\ fac v <> []) /\
  forall fuel, (0 < fuel)%nat -> scale fac fuel g = Panic.
Proof. exact no_variables_panics. Qed.
Print Assumptions C28_no_variables_refuted.

(** ** C29 *)
(** The search ends for every program, whatever its numbers are factorized into *)
Theorem C29_terminates : forall fac g, sizes_agree g -> exists fuel0 r, r <> Fuel /\ forall fuel, (fuel0 <= fuel)%nat -> scale fac fuel g = r.
Proof. exact scale_ends. Qed.
Print Assumptions C29_terminates.
(** The total exponent of a factor can become larger: columns are scaled the wrong way (the program is that of the test `test_scale_variable`) *)
Theorem C29_exponents_refuted : exists fac fuel g g' sc p, general_ok g /\ fresh g /\ scale fac fuel g = Ok (g', sc) /\
  (forall v, In v (values g) \/ In v (values g') -> prime_factorization (fac v) v) /\ prime p /\
  (total_exponent fac p g < total_exponent fac p g')%Z.
Proof. exact exponents_worse. Qed.
Print Assumptions C29_exponents_refuted.
(** With the column factors inverted it does not, for any factor of any program *)
Theorem C29_exponents_partial : forall fac fuel g g' sc g2, general_ok g -> scale fac fuel g = Ok (g', sc) -> apply_scaling Qcmult Qcdiv g (columns_inverted sc) = Ok g2 ->
  (forall v, In v (values g) \/ In v (values g2) -> prime_factorization (fac v) v) ->
  forall p, (total_exponent fac p g2 <= total_exponent fac p g)%Z.
Proof. exact intended_exponents. Qed.
Print Assumptions C29_exponents_partial.
Example C29_met : exists g' sc g2, general_ok ex_scale_solve /\ scale small 300 ex_scale_solve = Ok (g', sc) /\ apply_scaling Qcmult Qcdiv ex_scale_solve (columns_inverted sc) = Ok g2 /\
  (forall v, In v (values ex_scale_solve) \/ In v (values g2) -> prime_factorization (small v) v) /\ (total_exponent small 2 g2 < total_exponent small 2 ex_scale_solve)%Z.
Proof. exact ex_intended. Qed.
(** the model gives what the tests in the repository expect *)
Example C29_test_scale : exists g', scale small 300 ex_scale = Ok (g', mk_scaling 1 [1; zq 1 / zq 2; zq 1 / zq 7; zq 1 / zq 11] [1; 1]).
Proof. exact ex_scale_found. Qed.
Example C29_test_scale_variable : exists g', scale small 300 ex_scale_variable = Ok (g', mk_scaling 1 [1] [zq 19; 1]).
Proof. exact ex_scale_variable_found. Qed.
Example C29_test_solve_single : solve_scaling 100 ex_factored =
  Ok [(11, ((0, [0; 0; 0; -1]), [0; 0])); (7, ((0, [0; 0; -1; 0]), [0; 0])); (3, ((0, [0; 0; 0; 0]), [0; 0])); (2, ((0, [0; -1; 0; 1]), [0; -1]))]%Z.
Proof. exact ex_factored_solved. Qed.
