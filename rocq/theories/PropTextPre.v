(** * Properties of solving the program in a text with presolving (C45)

    The specification is the one of C38 and C41: SpecFile.v, SpecParse.v and SpecFixed.v.  [presolve_text] and
    [presolve_fixed_text] parse, convert, presolve and solve what remains.  Presolving is not right in every run, see
    C22: the theorems ask that the run is safe, [safe_text] (SafeRun.v), which is computed from the text.  Missing for
    the full claim are the other runs. *)
From Verif Require Import SpecFile SpecFixed TextPresolve TextSolveP FixedP TextPresolveP ExFile ExFixed ExTextPresolve ExAnswers ExMet.
Local Open Scope string_scope.
Local Open Scope list_scope.

Theorem C45_optimum_partial : forall b f text r n fuel s, file_ok f -> file_solvable f -> spells text f -> fsense f = Minimize -> safe_text b fuel text = true ->
  presolve_text b r n fuel text = Got (Ok (Solved_to s)) ->
  map fst (s_values s) = map fst (columns_of f) /\ foptimal f (answer_at s) /\ s_objective s = fcost f (answer_at s).
Proof. exact (fun b f text r n fuel s OK FS T M SR E => let (A, B) := pre_with_answer (parse_free b) f text r n fuel (Solved_to s) FS (text_reads b f text OK T) SR E in let (B, C) := B in conj A (conj B (C M))). Qed.
Print Assumptions C45_optimum_partial.
(** the reported objective value is wrong for maximization, see C21 *)
Theorem C45_maximum_partial : forall b f text r n fuel s, file_ok f -> file_solvable f -> spells text f -> safe_text b fuel text = true ->
  presolve_text b r n fuel text = Got (Ok (Solved_to s)) -> map fst (s_values s) = map fst (columns_of f) /\ foptimal f (answer_at s).
Proof. exact (fun b f text r n fuel s OK FS T SR E => let (A, B) := pre_with_answer (parse_free b) f text r n fuel (Solved_to s) FS (text_reads b f text OK T) SR E in let (B, _) := B in conj A B). Qed.
Print Assumptions C45_maximum_partial.
Theorem C45_infeasible_partial : forall b f text r n fuel, file_ok f -> file_solvable f -> spells text f -> safe_text b fuel text = true ->
  presolve_text b r n fuel text = Got (Ok NoSolution) -> forall x, ~ ffeasible f x.
Proof. exact (fun b f text r n fuel OK FS T => pre_with_answer (parse_free b) f text r n fuel NoSolution FS (text_reads b f text OK T)). Qed.
Print Assumptions C45_infeasible_partial.
(** unboundedness: if there is a feasible point at all, there are better and better ones *)
Theorem C45_unbounded_partial : forall b f text r n fuel, file_ok f -> file_solvable f -> spells text f -> safe_text b fuel text = true ->
  presolve_text b r n fuel text = Got (Ok NoBound) -> forall x, ffeasible f x -> funbounded f.
Proof. exact (fun b f text r n fuel OK FS T => pre_with_answer (parse_free b) f text r n fuel NoBound FS (text_reads b f text OK T)). Qed.
Print Assumptions C45_unbounded_partial.
(** such a text is never refused, and nothing panics *)
Theorem C45_never_panics_partial : forall b f text n fuel, file_ok f -> file_solvable f -> spells text f -> safe_text b fuel text = true ->
  exists result, presolve_text b UseRows n fuel text = Got result /\ result <> Panic.
Proof. exact (fun b f text n fuel OK FS T => pre_with_no_panic (parse_free b) f text n fuel FS (text_reads b f text OK T)). Qed.
Print Assumptions C45_never_panics_partial.
(** the optimum is found where there is one *)
Theorem C45_complete_partial : forall b f text x, file_ok f -> file_solvable f -> spells text f -> (forall fuel, safe_text b fuel text = true) -> fsense f = Minimize -> foptimal f x ->
  exists fuel s, presolve_text b UseRows FirstProfitable fuel text = Got (Ok (Solved_to s)) /\ s_objective s = fcost f x.
Proof. exact (fun b f text x OK FS T => pre_with_complete (parse_free b) f text x FS (text_reads b f text OK T)). Qed.
Print Assumptions C45_complete_partial.
Theorem C45_terminates_partial : forall b f text, file_ok f -> file_solvable f -> spells text f -> (forall fuel, safe_text b fuel text = true) ->
  exists fuel a, forall fuel', (fuel <= fuel')%nat -> presolve_text b UseRows FirstProfitable fuel' text = Got (Ok a).
Proof. exact (fun b f text OK FS T => pre_with_terminates (parse_free b) f text FS (text_reads b f text OK T)). Qed.
Print Assumptions C45_terminates_partial.
(** presolving does not change the objective value: solving the same text without it, with any rule, reports the same *)
Theorem C45_agrees_partial : forall b f text r n fuel r' n' fuel' s s', file_ok f -> file_solvable f -> spells text f -> safe_text b fuel text = true -> fsense f = Minimize ->
  presolve_text b r n fuel text = Got (Ok (Solved_to s)) -> solve_text b r' n' fuel' text = Got (Ok (Solved_to s')) -> s_objective s = s_objective s'.
Proof. exact (fun b f text r n fuel r' n' fuel' s s' OK FS T => pre_with_agree (parse_free b) f text r n fuel r' n' fuel' s s' FS (text_reads b f text OK T)). Qed.
Print Assumptions C45_agrees_partial.
Example C45_case : file_ok small_file /\ file_solvable small_file /\ spells small small_file /\ fsense small_file = Minimize /\ (forall b fuel, safe_text b fuel small = true) /\
  forall b r n, presolve_text b r n 40 small = Got (Ok small_answer).
Proof. exact (conj small_ok (conj small_solvable (conj small_spelled (conj eq_refl (conj small_safe small_presolved))))). Qed.
Example C45_changed : forall b, exists m g g', parse_free b small = Got m /\ to_general m = Got g /\ presolve 40 g = Go g' /\ ranges g = [true; false; false] /\ ranges g' = [false; false; false].
Proof. exact small_changed. Qed.

(** a run that is not safe: the reported value of S is -4, with every representation and rule, although S >= 0 *)
Theorem C45_refuted : exists f text s, file_ok f /\ file_solvable f /\ spells text f /\ fsense f = Minimize /\
  (forall b r n, presolve_text b r n 40 text = Got (Ok (Solved_to s))) /\ ~ ffeasible f (answer_at s).
Proof. exact (ex_intro _ wrong_file (ex_intro _ wrong_text (ex_intro _ wrong_solution (conj wrong_ok (conj wrong_solvable (conj wrong_spelled (conj eq_refl (conj wrong_presolved wrong_infeasible)))))))). Qed.
Print Assumptions C45_refuted.

(** ** Fixed format, as in C41 *)
Theorem C45_fixed_optimum_partial : forall b f text r n fuel s, fixed_ok f -> file_solvable f -> fixed_spells text f -> fsense f = Minimize -> safe_fixed_text b fuel text = true ->
  presolve_fixed_text b r n fuel text = Got (Ok (Solved_to s)) ->
  map fst (s_values s) = map fst (columns_of f) /\ foptimal f (answer_at s) /\ s_objective s = fcost f (answer_at s).
Proof. exact (fun b f text r n fuel s OK FS T M SR E => let (A, B) := pre_with_answer (parse_fixed b) f text r n fuel (Solved_to s) FS (fixed_read b f text OK T) SR E in let (B, C) := B in conj A (conj B (C M))). Qed.
Print Assumptions C45_fixed_optimum_partial.
Theorem C45_fixed_infeasible_partial : forall b f text r n fuel, fixed_ok f -> file_solvable f -> fixed_spells text f -> safe_fixed_text b fuel text = true ->
  presolve_fixed_text b r n fuel text = Got (Ok NoSolution) -> forall x, ~ ffeasible f x.
Proof. exact (fun b f text r n fuel OK FS T => pre_with_answer (parse_fixed b) f text r n fuel NoSolution FS (fixed_read b f text OK T)). Qed.
Print Assumptions C45_fixed_infeasible_partial.
Theorem C45_fixed_unbounded_partial : forall b f text r n fuel, fixed_ok f -> file_solvable f -> fixed_spells text f -> safe_fixed_text b fuel text = true ->
  presolve_fixed_text b r n fuel text = Got (Ok NoBound) -> forall x, ffeasible f x -> funbounded f.
Proof. exact (fun b f text r n fuel OK FS T => pre_with_answer (parse_fixed b) f text r n fuel NoBound FS (fixed_read b f text OK T)). Qed.
Print Assumptions C45_fixed_unbounded_partial.
(** the files without a solution and without a bound (C38, C41), in both formats *)
Example C45_infeasible_case : (forall b fuel, safe_text b fuel no_point = true) /\ (forall b fuel, safe_fixed_text b fuel no_point = true) /\
  (forall b r n, presolve_text b r n 40 no_point = Got (Ok NoSolution)) /\ forall b r n, presolve_fixed_text b r n 40 no_point = Got (Ok NoSolution).
Proof. exact no_point_pre. Qed.
Example C45_unbounded_case : (forall b fuel, safe_text b fuel no_bound = true) /\ (forall b fuel, safe_fixed_text b fuel no_bound = true) /\
  (forall b r n, presolve_text b r n 40 no_bound = Got (Ok NoBound)) /\ (forall b r n, presolve_fixed_text b r n 40 no_bound = Got (Ok NoBound)) /\ exists x, ffeasible no_bound_file x.
Proof. exact no_bound_pre. Qed.
Theorem C45_fixed_complete_partial : forall b f text x, fixed_ok f -> file_solvable f -> fixed_spells text f -> (forall fuel, safe_fixed_text b fuel text = true) -> fsense f = Minimize -> foptimal f x ->
  exists fuel s, presolve_fixed_text b UseRows FirstProfitable fuel text = Got (Ok (Solved_to s)) /\ s_objective s = fcost f x.
Proof. exact (fun b f text x OK FS T => pre_with_complete (parse_fixed b) f text x FS (fixed_read b f text OK T)). Qed.
Print Assumptions C45_fixed_complete_partial.
Example C45_fixed_case : fixed_ok fixed_file /\ file_solvable fixed_file /\ fixed_spells fixed_sample fixed_file /\ fsense fixed_file = Minimize /\ (forall b fuel, safe_fixed_text b fuel fixed_sample = true) /\
  forall b r n, presolve_fixed_text b r n 40 fixed_sample = Got (Ok fixed_answer).
Proof. exact (conj fixed_file_ok (conj fixed_solvable (conj fixed_sample_spelled (conj eq_refl (conj fixed_sample_safe fixed_presolved))))). Qed.
