(** * Presolving programs of limits and of demands (C59)

    Presolving is not right for every program, see C22 to C24 and C45: the theorems there ask something of the
    run.  Here nothing is asked of the run.  For the programs of SpecSides.v and the files of SpecFSides.v, which
    are recognized by looking at them, presolving is right, always. *)
From Verif Require Import SpecSizes Examples ExPresolve PreSafe SpecSides SidesP PackP ExSides.
From Verif Require Import SpecFSides SpecFixed TextPresolve TextSolveP FixedP FSidesP ExFSides.
Local Open Scope Qc_scope.

(** ** Presolving *)
(** Points: an optimal point of the remaining program, completed, is optimal for the program itself, with the same
    cost; a feasible point, completed, is feasible. *)
Theorem C59_points : forall fuel g g', general_ok g -> fresh g -> one_sided g -> presolve fuel g = Go g' ->
  (forall x val, gfeasible g' x -> completed g' x val -> gfeasible g val /\ gcost g val = gcost g' x) /\
  (forall x val, goptimal g' x -> completed g' x val -> goptimal g val /\ gcost g val = gcost g' x).
Proof. exact (fun fuel g g' G F S => presolve_points fuel g g' G F (one_sided_safe g G S fuel)). Qed.
Print Assumptions C59_points.
(** Nothing is lost. *)
Theorem C59_nothing_lost : forall fuel g g', general_ok g -> fresh g -> one_sided g -> presolve fuel g = Go g' ->
  general_ok g' /\ g_objective g' = g_objective g /\ map fst (g_orig g') = map fst (g_orig g) /\
  (forall y, gfeasible g y -> exists x, gfeasible g' x /\ better (g_objective g) (gcost g' x) (gcost g y)).
Proof. exact (fun fuel g g' G F S => presolve_lossless fuel g g' G F (one_sided_safe g G S fuel)). Qed.
Print Assumptions C59_nothing_lost.
(** When presolving solves the whole program, the reported point is an optimum and the reported cost is its cost. *)
Theorem C59_solution : forall fuel g s, general_ok g -> fresh g -> one_sided g -> presolve fuel g = Stop (VOptimum s) ->
  map fst (s_values s) = map fst (g_orig g) /\ goptimal g (solution_point s) /\ s_objective s = gcost g (solution_point s).
Proof. exact (fun fuel g s G F S => presolve_solution fuel g s G F (one_sided_safe g G S fuel)). Qed.
Print Assumptions C59_solution.
(** There is always a feasible point, so infeasibility is never reported; unboundedness is reported rightly. *)
Theorem C59_feasible : forall g, one_sided g -> exists x, gfeasible g x.
Proof. exact one_sided_feasible. Qed.
Print Assumptions C59_feasible.
Theorem C59_never_infeasible : forall fuel g, general_ok g -> fresh g -> one_sided g -> presolve fuel g <> Stop VInfeasible.
Proof. exact (fun fuel g G F => sided_not_infeasible g G F fuel). Qed.
Print Assumptions C59_never_infeasible.
Theorem C59_unbounded : forall fuel g, general_ok g -> fresh g -> one_sided g -> presolve fuel g = Stop VUnbounded -> gunbounded g.
Proof. exact (fun fuel g G F => sided_unbounded g G F fuel). Qed.
Print Assumptions C59_unbounded.
(** It does not panic and it ends. *)
Theorem C59_never_panics : forall fuel g, general_ok g -> fresh g -> one_sided g -> presolve fuel g <> PPanic.
Proof. exact (fun fuel g G F S => presolve_calm fuel g G F (one_sided_safe g G S fuel)). Qed.
Print Assumptions C59_never_panics.
Theorem C59_result : forall g, general_ok g -> fresh g -> one_sided g ->
  exists result fuel0, result <> PFuel /\ result <> PPanic /\ forall fuel, (fuel0 <= fuel)%nat -> presolve fuel g = result.
Proof. exact (fun g G F S => presolve_result g G F (one_sided_safe g G S)). Qed.
Print Assumptions C59_result.
Example C59_case : (general_ok o_limits /\ fresh o_limits) /\ one_sided o_limits /\ presolve 100 o_limits = Go o_limits_after.
Proof. exact (conj o_limits_ok (conj o_limits_sided o_limits_run)). Qed.
(** a row becomes a bound, another one goes, and a variable gets its value *)
Example C59_packing_case : (general_ok o_pack /\ fresh o_pack) /\ (packing o_pack /\ priced o_pack) /\ one_sided o_pack /\ presolve 100 o_pack = Go o_pack_after.
Proof. exact (conj o_pack_ok (conj (conj o_pack_packing o_pack_priced) (conj o_pack_sided o_pack_run))). Qed.
Example C59_covering_case : (general_ok o_cover /\ fresh o_cover) /\ covering o_cover /\ one_sided o_cover /\ presolve 100 o_cover = Go o_cover_after.
Proof. exact (conj o_cover_ok (conj o_cover_covering (conj o_cover_sided o_cover_run))). Qed.

(** ** Presolving and solving *)
(** Every answer is right, with every pivot rule and representation of the inverse. *)
Theorem C59_answer : forall g, general_ok g -> fresh g -> forall r n fuel a, one_sided g -> presolve_and_solve r n fuel g = Ok a ->
  match a with
  | Solved_to s => map fst (s_values s) = map fst (g_orig g) /\ goptimal g (solution_point s) /\
                   (g_objective g = Minimize -> s_objective s = gcost g (solution_point s))
  | NoSolution => False
  | NoBound => gunbounded g
  end.
Proof. exact sided_answer. Qed.
Print Assumptions C59_answer.
(** With the rows of the inverse there is no panic and an answer is reached. *)
Theorem C59_pipeline : forall g, general_ok g -> fresh g -> one_sided g ->
  (forall n fuel, presolve_and_solve UseRows n fuel g <> Panic) /\
  exists fuel0 a, forall fuel, (fuel0 <= fuel)%nat -> presolve_and_solve UseRows FirstProfitable fuel g = Ok a.
Proof. exact (fun g G F S => presolve_pipeline g G F (one_sided_safe g G S)). Qed.
Print Assumptions C59_pipeline.
(** With the LU decomposition as well, if at least two inequalities remain. *)
Theorem C59_lu : forall fuel0 g g', general_ok g -> fresh g -> one_sided g -> presolve fuel0 g = Go g' -> (2 <= inequality_rows g')%nat ->
  (forall n, presolve_and_solve UseLU n fuel0 g <> Panic) /\
  exists fuel1 a, forall fuel, (fuel1 <= fuel)%nat -> presolve_and_solve UseLU FirstProfitable fuel g = Ok a.
Proof. exact (fun fuel0 g g' G F S P C => conj (fun n => safe_solve_lu n fuel0 g g' G F (one_sided_safe g G S fuel0) P C) (safe_solve_lu_ends fuel0 g g' G F (one_sided_safe g G S fuel0) P C)). Qed.
Print Assumptions C59_lu.
Example C59_lu_case : presolve 100 o_cover = Go o_cover_after /\ (2 <= inequality_rows o_cover_after)%nat.
Proof. exact (conj o_cover_run o_cover_counts). Qed.
(** Packing and covering: an optimum is found. *)
Theorem C59_packing : forall g, general_ok g -> fresh g -> packing g -> priced g -> exists fuel0 s,
  (forall fuel, (fuel0 <= fuel)%nat -> presolve_and_solve UseRows FirstProfitable fuel g = Ok (Solved_to s)) /\
  map fst (s_values s) = map fst (g_orig g) /\ goptimal g (solution_point s) /\ (g_objective g = Minimize -> s_objective s = gcost g (solution_point s)).
Proof. exact packing_solved. Qed.
Print Assumptions C59_packing.
Theorem C59_covering : forall g, general_ok g -> fresh g -> covering g -> exists fuel0 s,
  (forall fuel, (fuel0 <= fuel)%nat -> presolve_and_solve UseRows FirstProfitable fuel g = Ok (Solved_to s)) /\
  map fst (s_values s) = map fst (g_orig g) /\ goptimal g (solution_point s) /\ s_objective s = gcost g (solution_point s).
Proof. exact covering_solved. Qed.
Print Assumptions C59_covering.
Example C59_solved_case : presolve_and_solve UseRows FirstProfitable 100 o_pack = Ok (Solved_to o_pack_solution) /\ presolve_and_solve UseRows FirstProfitable 100 o_cover = Ok (Solved_to o_cover_solution).
Proof. exact (conj o_pack_solved o_cover_solved). Qed.

(** The condition that every variable counts in the objective is needed: without it the program may be one for which
    a point that is not feasible is reported. *)
Theorem C59_without_costs_refuted : exists g fuel s, general_ok g /\ fresh g /\ demands g /\ presolve fuel g = Stop (VOptimum s) /\ ~ gfeasible g (solution_point s).
Proof. exact costs_needed. Qed.
Print Assumptions C59_without_costs_refuted.

(** ** Files: reading, presolving and solving *)
Theorem C59_file_answer : forall b f text r n fuel a, file_ok f -> file_solvable f -> spells text f -> file_sided f -> presolve_text b r n fuel text = Got (Ok a) ->
  exists s, a = Solved_to s /\ map fst (s_values s) = map fst (columns_of f) /\ foptimal f (answer_at s) /\ (fsense f = Minimize -> s_objective s = fcost f (answer_at s)).
Proof. exact (fun b f text r n fuel a OK FS T => with_sided_answer (parse_free b) f text r n fuel a FS (text_reads b f text OK T)). Qed.
Print Assumptions C59_file_answer.
Theorem C59_file_never_panics : forall b f text n fuel, file_ok f -> file_solvable f -> spells text f -> file_sided f ->
  exists result, presolve_text b UseRows n fuel text = Got result /\ result <> Panic.
Proof. exact (fun b f text n fuel OK FS T => with_sided_calm (parse_free b) f text n fuel FS (text_reads b f text OK T)). Qed.
Print Assumptions C59_file_never_panics.
Theorem C59_file_solved : forall b f text, file_ok f -> file_solvable f -> spells text f -> file_sided f -> exists fuel0 s,
  (forall fuel, (fuel0 <= fuel)%nat -> presolve_text b UseRows FirstProfitable fuel text = Got (Ok (Solved_to s))) /\
  map fst (s_values s) = map fst (columns_of f) /\ foptimal f (answer_at s) /\ (fsense f = Minimize -> s_objective s = fcost f (answer_at s)).
Proof. exact (fun b f text OK FS T => with_sided_solved (parse_free b) f text FS (text_reads b f text OK T)). Qed.
Print Assumptions C59_file_solved.
Theorem C59_fixed_answer : forall b f text r n fuel a, fixed_ok f -> file_solvable f -> fixed_spells text f -> file_sided f -> presolve_fixed_text b r n fuel text = Got (Ok a) ->
  exists s, a = Solved_to s /\ map fst (s_values s) = map fst (columns_of f) /\ foptimal f (answer_at s) /\ (fsense f = Minimize -> s_objective s = fcost f (answer_at s)).
Proof. exact (fun b f text r n fuel a OK FS T => with_sided_answer (parse_fixed b) f text r n fuel a FS (fixed_read b f text OK T)). Qed.
Print Assumptions C59_fixed_answer.
Theorem C59_fixed_solved : forall b f text, fixed_ok f -> file_solvable f -> fixed_spells text f -> file_sided f -> exists fuel0 s,
  (forall fuel, (fuel0 <= fuel)%nat -> presolve_fixed_text b UseRows FirstProfitable fuel text = Got (Ok (Solved_to s))) /\
  map fst (s_values s) = map fst (columns_of f) /\ foptimal f (answer_at s) /\ (fsense f = Minimize -> s_objective s = fcost f (answer_at s)).
Proof. exact (fun b f text OK FS T => with_sided_solved (parse_fixed b) f text FS (fixed_read b f text OK T)). Qed.
Print Assumptions C59_fixed_solved.
Example C59_file_case : (file_ok pack_text_file /\ file_solvable pack_text_file /\ spells pack_text pack_text_file /\ file_packing pack_text_file) /\
  forall b n, presolve_text b UseRows n 60 pack_text = Got (Ok pack_text_answer).
Proof. exact (conj (conj pack_text_ok (conj pack_text_solvable (conj pack_text_spelled pack_text_packing))) pack_text_presolved). Qed.
Example C59_file_covering_case : (file_ok cover_text_file /\ file_solvable cover_text_file /\ spells cover_text cover_text_file /\ file_covering cover_text_file) /\
  forall b n, presolve_text b UseRows n 60 cover_text = Got (Ok cover_text_answer).
Proof. exact (conj (conj cover_text_ok (conj cover_text_solvable (conj cover_text_spelled cover_text_covering))) cover_text_presolved). Qed.
Example C59_fixed_case : (fixed_ok cover_text_file /\ fixed_spells cover_text cover_text_file) /\ forall b n, presolve_fixed_text b UseRows n 60 cover_text = Got (Ok cover_text_answer).
Proof. exact (conj (conj cover_fixed_ok cover_fixed_spelled) cover_fixed_presolved). Qed.
