(** * Properties of solving the program in a text (C38)

    The specification is SpecFile.v on top of SpecParse.v: a content [f] of a file is a linear program over named
    variables, [ffeasible], [fcost], [foptimal] and [funbounded].  [spells text f] says that the text is written in
    free format with content [f], [file_ok] and [file_solvable] list the rules for contents.  [solve_text] parses, converts and
    solves, without presolving. *)
From Verif Require Import ExParse SpecFile TextPipeline TextSolveP ExFile ExAnswers.
Local Open Scope string_scope.
Local Open Scope list_scope.

Theorem C38_optimum : forall b f text r n fuel s, file_ok f -> file_solvable f -> spells text f -> fsense f = Minimize -> solve_text b r n fuel text = Got (Ok (Solved_to s)) ->
  map fst (s_values s) = map fst (columns_of f) /\ foptimal f (answer_at s) /\ s_objective s = fcost f (answer_at s).
Proof. exact (fun b f text r n fuel s OK FS T M E => let (A, B) := with_optimum (parse_free b) f text r n fuel s FS (text_reads b f text OK T) E in let (B, C) := B in conj A (conj B (C M))). Qed.
Print Assumptions C38_optimum.
(** the reported objective value is wrong for maximization, see C21 *)
Theorem C38_maximum_partial : forall b f text r n fuel s, file_ok f -> file_solvable f -> spells text f -> fsense f = Maximize -> solve_text b r n fuel text = Got (Ok (Solved_to s)) ->
  map fst (s_values s) = map fst (columns_of f) /\ foptimal f (answer_at s).
Proof. exact (fun b f text r n fuel s OK FS T M E => let (A, B) := with_optimum (parse_free b) f text r n fuel s FS (text_reads b f text OK T) E in let (B, _) := B in conj A B). Qed.
Print Assumptions C38_maximum_partial.
Example C38_maximum_case : file_ok largest_file /\ file_solvable largest_file /\ spells largest largest_file /\ fsense largest_file = Maximize /\
  forall b r n, exists s, solve_text b r n 40 largest = Got (Ok (Solved_to s)) /\ s_values s = [("X", q 1 1); ("Y", q 3 1)].
Proof. exact (conj largest_ok (conj largest_solvable (conj largest_spelled (conj eq_refl largest_solved)))). Qed.
Theorem C38_infeasible : forall b f text r n fuel, file_ok f -> file_solvable f -> spells text f -> solve_text b r n fuel text = Got (Ok NoSolution) -> forall x, ~ ffeasible f x.
Proof. exact (fun b f text r n fuel OK FS T => with_none (parse_free b) f text r n fuel FS (text_reads b f text OK T)). Qed.
Print Assumptions C38_infeasible.
Example C38_infeasible_case : file_ok no_point_file /\ file_solvable no_point_file /\ spells no_point no_point_file /\ forall b r n, solve_text b r n 40 no_point = Got (Ok NoSolution).
Proof. exact (conj no_point_ok (conj no_point_solvable (conj no_point_spelled no_point_solved))). Qed.
Theorem C38_unbounded : forall b f text r n fuel, file_ok f -> file_solvable f -> spells text f -> solve_text b r n fuel text = Got (Ok NoBound) -> funbounded f.
Proof. exact (fun b f text r n fuel OK FS T => with_unbounded (parse_free b) f text r n fuel FS (text_reads b f text OK T)). Qed.
Print Assumptions C38_unbounded.
Example C38_unbounded_case : file_ok no_bound_file /\ file_solvable no_bound_file /\ spells no_bound no_bound_file /\ forall b r n, solve_text b r n 40 no_bound = Got (Ok NoBound).
Proof. exact (conj no_bound_ok (conj no_bound_solvable (conj no_bound_spelled no_bound_solved))). Qed.
(** such a text is never refused, and nothing panics *)
Theorem C38_never_panics : forall b f text n fuel, file_ok f -> file_solvable f -> spells text f -> exists result, solve_text b UseRows n fuel text = Got result /\ result <> Panic.
Proof. exact (fun b f text n fuel OK FS T => with_no_panic (parse_free b) f text n fuel FS (text_reads b f text OK T)). Qed.
Print Assumptions C38_never_panics.
Theorem C38_terminates : forall b f text, file_ok f -> file_solvable f -> spells text f ->
  exists fuel a, forall fuel', (fuel <= fuel')%nat -> solve_text b UseRows FirstProfitable fuel' text = Got (Ok a).
Proof. exact (fun b f text OK FS T => with_terminates (parse_free b) f text FS (text_reads b f text OK T)). Qed.
Print Assumptions C38_terminates.
Theorem C38_complete : forall b f text x, file_ok f -> file_solvable f -> spells text f -> fsense f = Minimize -> foptimal f x ->
  exists fuel s, solve_text b UseRows FirstProfitable fuel text = Got (Ok (Solved_to s)) /\ s_objective s = fcost f x.
Proof. exact (fun b f text x OK FS T => with_complete (parse_free b) f text x FS (text_reads b f text OK T)). Qed.
Print Assumptions C38_complete.
Example C38_case : file_ok small_file /\ file_solvable small_file /\ spells small small_file /\ fsense small_file = Minimize /\ forall b r n, solve_text b r n 40 small = Got (Ok small_answer).
Proof. exact (conj small_ok (conj small_solvable (conj small_spelled (conj eq_refl small_solved)))). Qed.
