(** * Two programs in one file (C64)

    The specification is SpecBeside.v: [beside f1 f2 f] says that [f] consists of [f1] and [f2], which share neither
    constraints nor variables; [answered f a] (SpecOrder.v) says that one of the ways to solve a text of [f] returns [a]. *)
From Verif Require Import Examples ExGeneral ExParse ExFile ExOrder ExUnits ExBeside SpecBeside BesideP.
Local Open Scope string_scope.
Local Open Scope list_scope.
Local Open Scope Qc_scope.

(** The outcome for both is the outcomes of the two put together: costs are added, one infeasible program makes both
    infeasible, and otherwise one unbounded program makes both unbounded. *)
Theorem C64_outcome : forall f1 f2 f a1 a2 a, file_solvable f1 -> file_solvable f2 -> file_solvable f -> beside f1 f2 f -> answered f1 a1 -> answered f2 a2 -> answered f a ->
  outcome_of f a = together (outcome_of f1 a1) (outcome_of f2 a2).
Proof. exact together_outcome. Qed.
Print Assumptions C64_outcome.
(** The values reported for both are optimal for each of them. *)
Theorem C64_optimal : forall f1 f2 f s, file_rules f1 -> file_rules f2 -> file_solvable f -> beside f1 f2 f -> answered f (Solved_to s) -> foptimal f1 (answer_at s) /\ foptimal f2 (answer_at s).
Proof. exact together_optimal. Qed.
Print Assumptions C64_optimal.
(** When one of them has one optimum, the values of its variables do not depend on the other one. *)
Theorem C64_values : forall f1 f2 f s1 s, file_solvable f1 -> file_rules f2 -> file_solvable f -> beside f1 f2 f -> answered f1 (Solved_to s1) -> answered f (Solved_to s) -> only_optimum f1 ->
  forall c, In c (names_of_columns f1) -> answer_at s c = answer_at s1 c.
Proof. exact together_values. Qed.
Print Assumptions C64_values.
(** Two programs, the first of which has one optimum, and both in one file in another order. *)
Example C64_case : file_solvable looser_file /\ file_solvable second_file /\ file_solvable joined_file /\ beside looser_file second_file joined_file /\ only_optimum looser_file /\
  answered looser_file looser_answer /\ answered second_file second_answer /\ answered joined_file joined_answer.
Proof.
  exact (conj looser_solvable (conj second_solvable (conj joined_solvable (conj joined_beside (conj looser_only (conj (proj1 (proj2 (proj2 case_answered))) (conj second_answered joined_answered))))))).
Qed.
