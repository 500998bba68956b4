(** * Other formulations of a program (C67)

    The specification is SpecReform.v: [with_slack] puts an equation and a new column in the place of an inequality,
    [with_parts] the difference of two new columns in the place of a free one, [with_two_rows] two inequalities in
    the place of an equation or of a constraint with a range, [with_bound_row] one in the place of an upper
    bound, and [with_value] a number in the place of a fixed column.  [answered] and [outcome_of] are from SpecOrder.v. *)
From Verif Require Import Examples ExGeneral ExParse ExFile ExOrder ExUnits ExBeside ExReform SpecReform ReformP.
Local Open Scope string_scope.
Local Open Scope list_scope.
Local Open Scope Qc_scope.

(** An equation with a new column instead of an inequality does not change the outcome, and the values reported are optimal
    for the program with the inequality. *)
Theorem C67_slack : forall k r c f f2 a a2, file_solvable f -> file_solvable f2 -> with_slack k r c f f2 -> answered f a -> answered f2 a2 -> outcome_of f2 a2 = outcome_of f a.
Proof. exact (fun k r c f f2 a a2 FS FS2 W => slack_outcome k r c f f2 FS FS2 W a a2). Qed.
Print Assumptions C67_slack.
Theorem C67_slack_values : forall k r c f f2 s, file_solvable f -> file_solvable f2 -> with_slack k r c f f2 -> answered f2 (Solved_to s) -> foptimal f (answer_at s).
Proof. exact (fun k r c f f2 s FS FS2 W => slack_optimal k r c f f2 FS FS2 W s). Qed.
Print Assumptions C67_slack_values.
(** The difference of two columns instead of a free one does not change the outcome, and the difference of their reported
    values, with the other reported values, is optimal for the program with the free column. *)
Theorem C67_parts : forall c p n f f2 a a2, file_solvable f -> file_solvable f2 -> with_parts c p n f f2 -> answered f a -> answered f2 a2 -> outcome_of f2 a2 = outcome_of f a.
Proof. exact (fun c p n f f2 a a2 FS FS2 W => parts_outcome c p n f f2 FS FS2 W a a2). Qed.
Print Assumptions C67_parts.
Theorem C67_parts_values : forall c p n f f2 s, file_solvable f -> file_solvable f2 -> with_parts c p n f f2 -> answered f2 (Solved_to s) ->
  foptimal f (fun c' => if String.eqb c' c then answer_at s p - answer_at s n else answer_at s c').
Proof. exact (fun c p n f f2 s FS FS2 W => parts_optimal c p n f f2 FS FS2 W s). Qed.
Print Assumptions C67_parts_values.
(** Two inequalities instead of a constraint that keeps the value of a row between two limits do not change the outcome, and
    the values reported are optimal for the program with the one constraint. *)
Theorem C67_two_rows : forall k r r' lo hi f f2 a a2, file_solvable f -> file_solvable f2 -> with_two_rows k r r' lo hi f f2 -> answered f a -> answered f2 a2 -> outcome_of f2 a2 = outcome_of f a.
Proof. exact (fun k r r' lo hi f f2 a a2 FS FS2 W => two_outcome k r r' lo hi f f2 FS FS2 W a a2). Qed.
Print Assumptions C67_two_rows.
Theorem C67_two_rows_values : forall k r r' lo hi f f2 s, file_solvable f -> file_solvable f2 -> with_two_rows k r r' lo hi f f2 -> answered f2 (Solved_to s) -> foptimal f (answer_at s).
Proof. exact (fun k r r' lo hi f f2 s FS FS2 W => two_optimal k r r' lo hi f f2 FS FS2 W s). Qed.
Print Assumptions C67_two_rows_values.
(** An inequality instead of an upper bound does not change the outcome, and the values reported are optimal for the program
    with the bound. *)
Theorem C67_bound_row : forall c r u f f2 a a2, file_solvable f -> file_solvable f2 -> with_bound_row c r u f f2 -> answered f a -> answered f2 a2 -> outcome_of f2 a2 = outcome_of f a.
Proof. exact (fun c r u f f2 a a2 FS FS2 W => bound_outcome c r u f f2 FS FS2 W a a2). Qed.
Print Assumptions C67_bound_row.
Theorem C67_bound_row_values : forall c r u f f2 s, file_solvable f -> file_solvable f2 -> with_bound_row c r u f f2 -> answered f2 (Solved_to s) -> foptimal f (answer_at s).
Proof. exact (fun c r u f f2 s FS FS2 W => bound_optimal c r u f f2 FS FS2 W s). Qed.
Print Assumptions C67_bound_row_values.
(** The number at which a column is fixed instead of the column changes the cost of an optimum by what the column cost, and
    the values reported, with that number, are optimal for the program with the column. *)
Theorem C67_value : forall c v f f2 a a2, file_solvable f -> file_solvable f2 -> with_value c v f f2 -> answered f a -> answered f2 a2 ->
  outcome_of f2 a2 = shifted (coefficient_of f (cost_row f) c * v) (outcome_of f a).
Proof. exact (fun c v f f2 a a2 FS FS2 W => put_outcome c v f f2 W a a2 FS FS2). Qed.
Print Assumptions C67_value.
Theorem C67_value_values : forall c v f f2 s, file_solvable f -> file_solvable f2 -> with_value c v f f2 -> answered f2 (Solved_to s) ->
  foptimal f (fun c' => if String.eqb c' c then v else answer_at s c').
Proof. exact (fun c v f f2 s _ FS2 W => put_optimal c v f f2 W s FS2). Qed.
Print Assumptions C67_value_values.
(** A demand with a surplus. *)
Example C67_case_slack : file_solvable second_file /\ file_solvable evened_file /\ with_slack KGreater "NEED" "SURPLUS" second_file evened_file /\
  answered second_file second_answer /\ answered evened_file evened_answer.
Proof. exact (conj second_solvable (conj evened_solvable (conj second_slack (conj second_answered evened_answered)))). Qed.
(** The free column of the program of ExOrder.v in two parts. *)
Example C67_case_parts : file_solvable looser_file /\ file_solvable parted_file /\ with_parts "ZTHREE" "ZPLUS" "ZMINUS" looser_file parted_file /\
  answered looser_file looser_answer /\ answered parted_file parted_answer.
Proof. exact (conj looser_solvable (conj parted_solvable (conj looser_parts (conj (proj1 (proj2 (proj2 case_answered))) parted_answered)))). Qed.
(** The constraint with a range of the same program as two inequalities. *)
Example C67_case_two_rows : file_solvable paired_file /\ with_two_rows KLess "LIM1" "LEAST" (q 5 2) (q 5 1) looser_file paired_file /\ answered paired_file paired_answer.
Proof. exact (conj paired_solvable (conj looser_two_rows paired_answered)). Qed.
(** The upper bound of a column of the same program as an inequality. *)
Example C67_case_bound_row : file_solvable rowed_file /\ with_bound_row "XONE" "MOST" (q 4 1) looser_file rowed_file /\ answered rowed_file rowed_answer.
Proof. exact (conj rowed_solvable (conj looser_bound_row rowed_answered)). Qed.
(** A column fixed at -1. *)
Example C67_case_value : file_solvable held_file /\ file_solvable filledin_file /\ with_value "YTWO" (q (-1) 1) held_file filledin_file /\
  answered held_file held_answer /\ answered filledin_file filledin_answer.
Proof. exact (conj held_solvable (conj filledin_solvable (conj held_value (conj held_answered filledin_answered)))). Qed.
