(** * Properties that relate the answers to different files (C54)

    The specification is SpecOrder.v: ways to get an answer, the order of outcomes and relations between files. *)
From Verif Require Import Examples ExGeneral ExParse ExFile ExOrder SpecOrder OrderP.
Local Open Scope string_scope.
Local Open Scope list_scope.
Local Open Scope Qc_scope.

(** When every solution of one program is matched by a solution of the other that is as good, the answer to the other
    is not worse, whatever ways the answers were got. *)
Theorem C54_order : forall f f' a a', file_solvable f -> file_solvable f' -> answered f a -> answered f' a' -> dominates f' f -> no_worse (fsense f) (outcome_of f' a') (outcome_of f a).
Proof. exact order. Qed.
Print Assumptions C54_order.
(** All ways to get an answer agree on the outcome: free or fixed format, spelling, build, representation, rule,
    presolving. *)
Theorem C54_same : forall f a a', file_solvable f -> answered f a -> answered f a' -> outcome_of f a' = outcome_of f a.
Proof. exact (fun f a a' FS A A' => same_outcome f f a a' FS FS A A' (dominates_refl f) (dominates_refl f)). Qed.
Print Assumptions C54_same.
(** Removing constraints or loosening bounds never makes the answer worse. *)
Theorem C54_relaxed : forall f f' a a', file_solvable f -> file_solvable f' -> answered f a -> answered f' a' -> relaxed f f' -> no_worse (fsense f) (outcome_of f' a') (outcome_of f a).
Proof. exact (fun f f' a a' FS FS' A A' RX => order f f' a a' FS FS' A A' (relaxed_dominates f f' (fs_rules f' FS') RX)). Qed.
Print Assumptions C54_relaxed.
(** The names of rows and columns and the order of what a file says do not matter. *)
Theorem C54_renamed : forall row column f f' a a', file_solvable f -> file_solvable f' -> answered f a -> answered f' a' -> renamed row column f f' -> outcome_of f' a' = outcome_of f a.
Proof. exact (fun row column f f' a a' FS FS' A A' RN => same_outcome f f' a a' FS FS' A A' (renamed_dominates row column f f' (fs_rules f FS) RN) (renamed_dominated row column f f' (fs_rules f FS) RN)). Qed.
Print Assumptions C54_renamed.
(** For minimization the reported objective value is the same too. *)
Theorem C54_renamed_reported : forall row column f f' s s', file_solvable f -> file_solvable f' -> answered f (Solved_to s) -> answered f' (Solved_to s') -> renamed row column f f' ->
  fsense f = Minimize -> s_objective s' = s_objective s.
Proof. exact (fun row column f f' s s' FS FS' A A' RN => same_objective f f' s s' FS FS' A A' (renamed_dominates row column f f' (fs_rules f FS) RN) (renamed_dominated row column f f' (fs_rules f FS) RN)). Qed.
Print Assumptions C54_renamed_reported.
(** Multiplying a constraint by a positive number changes nothing. *)
Theorem C54_scaled_row : forall k row f a a', 0 < k -> (exists kind, In (Some kind, row) (f_rows f)) -> file_solvable f -> file_solvable (scale_row k row f) -> answered f a -> answered (scale_row k row f) a' ->
  outcome_of (scale_row k row f) a' = outcome_of f a.
Proof. exact (fun k row f a a' K R FS FS' A A' => same_outcome f (scale_row k row f) a a' FS FS' A A' (scaled_row_dominates k row f (fs_rules f FS) K R) (scaled_row_dominated k row f (fs_rules f FS) K R)). Qed.
Print Assumptions C54_scaled_row.
(** Multiplying the costs by a number multiplies the optimal cost by it; when the number is negative, a minimum becomes a
    maximum. *)
Theorem C54_scaled_cost : forall k f a a', k <> 0 -> file_solvable f -> file_solvable (scale_cost k f) -> answered f a -> answered (scale_cost k f) a' ->
  outcome_of (scale_cost k f) a' = times k (outcome_of f a).
Proof. exact scaled_costs. Qed.
Print Assumptions C54_scaled_cost.
(** Answers come: with the first profitable column and the rows of the inverse, both texts are solved. *)
Theorem C54_answers : forall b b' f f' text text', file_ok f -> file_ok f' -> file_solvable f -> file_solvable f' -> spells text f -> spells text' f' ->
  exists fuel a a', forall fuel', (fuel <= fuel')%nat ->
  solve_text b UseRows FirstProfitable fuel' text = Got (Ok a) /\ solve_text b' UseRows FirstProfitable fuel' text' = Got (Ok a').
Proof. exact both_answered. Qed.
Print Assumptions C54_answers.
(** One program in four texts: presolved; with other names and another order; without a constraint and with a looser
    bound; and the last one with its costs times -2 and with a constraint times 2. *)
Example C54_case : answered small_file small_answer /\ answered shuffled_file shuffled_answer /\ answered looser_file looser_answer /\
  answered (scale_cost (q (-2) 1) looser_file) mirrored_answer /\ answered (scale_row (q 2 1) "LIM1" looser_file) looser_answer.
Proof. exact case_answered. Qed.
Example C54_case_related : renamed new_row new_column small_file shuffled_file /\ relaxed small_file looser_file /\ In (Some KLess, "LIM1") (f_rows looser_file).
Proof. exact (conj shuffled_renamed (conj looser_relaxed (or_intror (or_introl eq_refl)))). Qed.
Example C54_case_solvable : file_solvable small_file /\ file_solvable shuffled_file /\ file_solvable looser_file /\ file_solvable (scale_cost (q (-2) 1) looser_file) /\ file_solvable (scale_row (q 2 1) "LIM1" looser_file).
Proof. exact (conj small_solvable (conj shuffled_solvable (conj looser_solvable (conj mirrored_solvable stretched_solvable)))). Qed.
(** The reported objective value does not follow the costs when a minimum becomes a maximum (C21). *)
Theorem C54_refuted : exists k f s s', k <> 0 /\ file_solvable f /\ file_solvable (scale_cost k f) /\ answered f (Solved_to s) /\ answered (scale_cost k f) (Solved_to s') /\ s_objective s' <> k * s_objective s.
Proof. exact reported_mirrored. Qed.
Print Assumptions C54_refuted.
