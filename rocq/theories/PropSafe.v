(** * Presolving where it is right (C22, C23, C24, C27)

    The full claims are false of the code, see PropPresolve.v.  Here they are proved for every consistent
    program as a user writes it down ([general_ok], [fresh], SpecGeneral.v) and every number of iterations,
    as long as the run is safe: [safe_run fuel g] (SafeRun.v) follows the run and says whether one of four
    situations occurs in it.  [safe g] says it for every number of iterations.  What is missing for the full
    claims are the other runs, and all that is refuted happens in them.

    [completed g' x val] says that [val] gives all original variables the values that belong to the point
    [x] of the remaining program [g']; [solution_point s] is the reported point of a solution. *)
From Verif Require Import SpecSizes Examples ExPresolve ExSafe PreSafe.
Local Open Scope Qc_scope.

(** ** C22: optimality and feasibility are kept *)
(** Every optimal point of the remaining program, completed, is optimal for the program itself, with the
    same cost; every feasible point, completed, is feasible. *)
Theorem C22_safe_partial : forall fuel g g', general_ok g -> fresh g -> safe_run fuel g = true -> presolve fuel g = Go g' ->
  (forall x val, gfeasible g' x -> completed g' x val -> gfeasible g val /\ gcost g val = gcost g' x) /\
  (forall x val, goptimal g' x -> completed g' x val -> goptimal g val /\ gcost g val = gcost g' x).
Proof. exact presolve_points. Qed.
Print Assumptions C22_safe_partial.
(** Nothing is lost: a feasible point of the program leaves one of the remaining program that costs at most
    as much, and the remaining program is again a consistent program about the same variables. *)
Theorem C22_safe_nothing_lost_partial : forall fuel g g', general_ok g -> fresh g -> safe_run fuel g = true -> presolve fuel g = Go g' ->
  general_ok g' /\ g_objective g' = g_objective g /\ map fst (g_orig g') = map fst (g_orig g) /\
  (forall y, gfeasible g y -> exists x, gfeasible g' x /\ better (g_objective g) (gcost g' x) (gcost g y)).
Proof. exact presolve_lossless. Qed.
Print Assumptions C22_safe_nothing_lost_partial.
(** When presolving solves the whole program, the reported point is an optimum and the reported cost is its
    cost. *)
Theorem C22_safe_solution_partial : forall fuel g s, general_ok g -> fresh g -> safe_run fuel g = true -> presolve fuel g = Stop (VOptimum s) ->
  map fst (s_values s) = map fst (g_orig g) /\ goptimal g (solution_point s) /\ s_objective s = gcost g (solution_point s).
Proof. exact presolve_solution. Qed.
Print Assumptions C22_safe_solution_partial.
(** The same for presolving followed by solving, with every pivot rule and representation of the inverse. *)
Theorem C22_safe_pipeline_partial : forall r n fuel g a, general_ok g -> fresh g -> safe_run fuel g = true -> presolve_and_solve r n fuel g = Ok a ->
  match a with
  | Solved_to s => map fst (s_values s) = map fst (g_orig g) /\ goptimal g (solution_point s) /\
                   (g_objective g = Minimize -> s_objective s = gcost g (solution_point s))
  | NoSolution => forall x, ~ gfeasible g x
  | NoBound => forall x, gfeasible g x -> gunbounded g
  end.
Proof. exact safe_solve. Qed.
Print Assumptions C22_safe_pipeline_partial.

(** ** C23: verdicts *)
Theorem C23_safe_infeasible_partial : forall fuel g, general_ok g -> fresh g -> safe_run fuel g = true -> presolve fuel g = Stop VInfeasible ->
  forall x, ~ gfeasible g x.
Proof. exact presolve_infeasible. Qed.
Print Assumptions C23_safe_infeasible_partial.
(** Unboundedness: if there is a feasible point at all, there are better and better ones. *)
Theorem C23_safe_unbounded_partial : forall fuel g x, general_ok g -> fresh g -> safe_run fuel g = true -> presolve fuel g = Stop VUnbounded ->
  gfeasible g x -> gunbounded g.
Proof. exact presolve_unbounded. Qed.
Print Assumptions C23_safe_unbounded_partial.

(** ** C24: panics *)
Theorem C24_safe_partial : forall fuel g, general_ok g -> fresh g -> safe_run fuel g = true -> presolve fuel g <> PPanic.
Proof. exact presolve_calm. Qed.
Print Assumptions C24_safe_partial.
(** A result is reached: from some number of iterations on it is always the same. *)
Theorem C24_safe_result_partial : forall g, general_ok g -> fresh g -> safe g ->
  exists result fuel0, result <> PFuel /\ result <> PPanic /\ forall fuel, (fuel0 <= fuel)%nat -> presolve fuel g = result.
Proof. exact presolve_result. Qed.
Print Assumptions C24_safe_result_partial.
(** Presolving and solving with the rows of the inverse does not panic and reaches an answer. *)
Theorem C24_safe_pipeline_partial : forall g, general_ok g -> fresh g -> safe g ->
  (forall n fuel, presolve_and_solve UseRows n fuel g <> Panic) /\
  exists fuel0 a, forall fuel, (fuel0 <= fuel)%nat -> presolve_and_solve UseRows FirstProfitable fuel g = Ok a.
Proof. exact presolve_pipeline. Qed.
Print Assumptions C24_safe_pipeline_partial.
(** With the LU decomposition as well, if at least two inequalities remain ([inequality_rows], SpecSizes.v). *)
Theorem C24_safe_lu_partial : forall n fuel g g', general_ok g -> fresh g -> safe_run fuel g = true -> presolve fuel g = Go g' ->
  (2 <= inequality_rows g')%nat -> presolve_and_solve UseLU n fuel g <> Panic.
Proof. exact safe_solve_lu. Qed.
Print Assumptions C24_safe_lu_partial.
Theorem C24_safe_lu_result_partial : forall fuel0 g g', general_ok g -> fresh g -> safe_run fuel0 g = true -> presolve fuel0 g = Go g' ->
  (2 <= inequality_rows g')%nat ->
  exists fuel1 a, forall fuel, (fuel1 <= fuel)%nat -> presolve_and_solve UseLU FirstProfitable fuel g = Ok a.
Proof. exact safe_solve_lu_ends. Qed.
Print Assumptions C24_safe_lu_result_partial.
(** Whether a program is safe is found out by one run. *)
Theorem C24_safe_decided : forall fuel g, presolve_changes fuel g <> PFuel -> safe_run fuel g = true -> safe g.
Proof. exact safe_check. Qed.
Print Assumptions C24_safe_decided.

(** ** C27: calling presolve again *)
(** After any number of calls none of which removes a variable ([presolved_to], SafeRun.v), a call finds the
    program as it has to: what comes out is right for the first program.  Missing: calls after a variable has
    been removed, refuted in PropPresolve.v. *)
Theorem C27_variables_kept_partial : forall fuel g g1 g2, general_ok g -> fresh g -> presolved_to g g1 ->
  safe_run fuel g1 = true -> presolve fuel g1 = Go g2 ->
  forall x val, goptimal g2 x -> completed g2 x val -> goptimal g val /\ gcost g val = gcost g2 x.
Proof. exact presolved_again. Qed.
Print Assumptions C27_variables_kept_partial.

(** ** The hypotheses are met *)
Example C27_variables_kept_met : general_ok s_same /\ fresh s_same /\ presolved_to s_same s_same_after /\ g_rows s_same_after <> g_rows s_same /\
  safe_run 100 s_same_after = true /\ presolve 100 s_same_after = Go s_same_after.
Proof. exact (conj (proj1 s_same_ok) (conj (proj2 s_same_ok) (conj s_same_once (conj fewer_rows (conj s_same_safe_again s_same_again))))). Qed.
Example C22_safe_met : general_ok s_main /\ fresh s_main /\ safe s_main /\ presolve 100 s_main = Go s_main_after /\
  presolve_and_solve UseRows FirstProfitable 100 s_main = Ok (Solved_to s_main_solution).
Proof. exact (conj (proj1 s_main_ok) (conj (proj2 s_main_ok) (conj s_main_safe (conj s_main_run s_main_solved)))). Qed.
Example C22_safe_resting_met : general_ok s_rests /\ fresh s_rests /\ safe s_rests /\ presolve 100 s_rests = Go s_rests_after.
Proof. exact (conj (proj1 s_rests_ok) (conj (proj2 s_rests_ok) (conj s_rests_safe s_rests_run))). Qed.
Example C24_safe_lu_met : (2 <= inequality_rows s_main_after)%nat.
Proof. exact s_main_counts. Qed.
Example C22_safe_solution_met : general_ok s_all /\ fresh s_all /\ safe s_all /\ presolve 100 s_all = Stop (VOptimum s_all_solution).
Proof. exact (conj (proj1 s_all_ok) (conj (proj2 s_all_ok) (conj s_all_safe s_all_run))). Qed.
Example C23_safe_met : (general_ok s_infeasible /\ fresh s_infeasible /\ safe s_infeasible /\ presolve 100 s_infeasible = Stop VInfeasible) /\
  (general_ok s_unbounded /\ fresh s_unbounded /\ safe s_unbounded /\ presolve 100 s_unbounded = Stop VUnbounded).
Proof.
  exact (conj (conj (proj1 s_infeasible_ok) (conj (proj2 s_infeasible_ok) (conj s_infeasible_safe s_infeasible_run)))
    (conj (proj1 s_unbounded_ok) (conj (proj2 s_unbounded_ok) (conj s_unbounded_safe s_unbounded_run)))).
Qed.
(** and the programs of the refuted claims do not meet them *)
Example C22_unsafe : map (safe_run 100) [w_range; w_slack; w_two; w_stale; w_dropped; w_panic] = repeat false 6.
Proof. exact caught. Qed.
