(** * Solving a program by cases (C66)

    The specification is SpecCases.v: [two_cases f f1 f2] says that the solutions of [f] are those of [f1] and those of
    [f2], at the same costs, and [best] is the better one of two outcomes; [all_cases] and
    [best_of] are the same for any number of programs.  [answered] and the order of outcomes are from
    SpecOrder.v. *)
From Verif Require Import Examples ExGeneral ExParse ExFile ExOrder ExUnits ExCases SpecCases CasesP OrderP.
Local Open Scope string_scope.
Local Open Scope list_scope.
Local Open Scope Qc_scope.

(** The answer is the better one of the answers in the two cases. *)
Theorem C66_outcome : forall f f1 f2 a a1 a2, file_solvable f -> file_solvable f1 -> file_solvable f2 -> two_cases f f1 f2 -> answered f a -> answered f1 a1 -> answered f2 a2 ->
  outcome_of f a = best (fsense f) (outcome_of f1 a1) (outcome_of f2 a2).
Proof. exact cases_outcome. Qed.
Print Assumptions C66_outcome.
(** The values reported in the better case are optimal. *)
Theorem C66_values : forall f f1 f2 s1 a2, file_solvable f1 -> file_solvable f2 -> two_cases f f1 f2 -> answered f1 (Solved_to s1) -> answered f2 a2 ->
  no_worse (fsense f) (Value (fcost f1 (answer_at s1))) (outcome_of f2 a2) -> foptimal f (answer_at s1).
Proof. exact cases_values. Qed.
Print Assumptions C66_values.
(** The same for any number of cases, which may overlap. *)
Theorem C66_many : forall f fs a l, file_solvable f -> Forall file_solvable fs -> all_cases f fs -> answered f a -> Forall2 answered fs l ->
  outcome_of f a = best_of (fsense f) fs l.
Proof. exact many_outcome. Qed.
Print Assumptions C66_many.
Theorem C66_many_values : forall f fs l g s, file_solvable f -> Forall file_solvable fs -> all_cases f fs -> Forall2 answered fs l -> In (g, Solved_to s) (combine fs l) ->
  (forall g' a', In (g', a') (combine fs l) -> no_worse (fsense f) (Value (fcost g (answer_at s))) (outcome_of g' a')) -> foptimal f (answer_at s).
Proof. exact many_values. Qed.
Print Assumptions C66_many_values.
(** More constraints that the reported values meet do not change the answer. *)
Theorem C66_kept : forall f f' s a', file_solvable f -> file_solvable f' -> relaxed f' f -> answered f (Solved_to s) -> ffeasible f' (answer_at s) -> answered f' a' ->
  outcome_of f' a' = Value (fcost f (answer_at s)).
Proof. exact kept_outcome. Qed.
Print Assumptions C66_kept.
(** The program of ExOrder.v: with XONE at most 3 the minimum is 17/4, with XONE at least 3 it is 5/2, and so it is without. *)
Example C66_case : file_solvable looser_file /\ file_solvable below_file /\ file_solvable above_file /\ two_cases looser_file below_file above_file /\
  answered looser_file looser_answer /\ answered below_file below_answer /\ answered above_file above_answer /\
  outcome_of below_file below_answer = Value (q 17 4) /\ outcome_of above_file above_answer = Value (q 5 2).
Proof.
  refine (conj looser_solvable (conj below_solvable (conj above_solvable (conj looser_cases (conj (proj1 (proj2 (proj2 case_answered))) (conj below_answered (conj above_answered _))))))).
  split; cbn [outcome_of below_answer above_answer]; f_equal; apply qeqb_true; vm_compute; reflexivity.
Qed.
(** The same program with a constraint that its optimum meets. *)
Example C66_case_kept : file_solvable crowded_file /\ relaxed crowded_file looser_file /\ answered crowded_file looser_answer /\
  ffeasible crowded_file (answer_at (mk_solution (q 5 2) [("XONE", q 7 2); ("YTWO", q (-1) 1); ("ZTHREE", q 6 1)])).
Proof. refine (conj crowded_solvable (conj crowded_relaxed (conj crowded_answered _))). exact (proj1 (proj1 (answered_right _ _ crowded_solvable crowded_answered))). Qed.
(** The two cases of C66_case and a third one that overlaps with them. *)
Example C66_case_many : Forall file_solvable [below_file; crowded_file; above_file] /\ all_cases looser_file [below_file; crowded_file; above_file] /\
  Forall2 answered [below_file; crowded_file; above_file] [below_answer; looser_answer; above_answer].
Proof.
  split; [|split; [exact looser_many|]].
  - exact (Forall_cons _ below_solvable (Forall_cons _ crowded_solvable (Forall_cons _ above_solvable (Forall_nil _)))).
  - exact (Forall2_cons _ _ below_answered (Forall2_cons _ _ crowded_answered (Forall2_cons _ _ above_answered (Forall2_nil _)))).
Qed.
