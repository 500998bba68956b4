(** * More properties that relate the answers to different files (C54)

    The specification is SpecUnits.v: programs with one optimum and other units of a variable. *)
From Verif Require Import Examples ExGeneral ExParse ExFile ExOrder ExUnits SpecUnits UnitsP.
Local Open Scope string_scope.
Local Open Scope list_scope.
Local Open Scope Qc_scope.

(** When a program has one optimum, all ways to get an answer report the same values. *)
Theorem C54_one_optimum : forall f s s', file_solvable f -> answered f (Solved_to s) -> answered f (Solved_to s') -> only_optimum f -> s_values s' = s_values s.
Proof. exact one_optimum. Qed.
Print Assumptions C54_one_optimum.
(** With other names and another order they report the same value for each column. *)
Theorem C54_one_optimum_renamed : forall row column f f' s s', file_solvable f -> file_solvable f' -> answered f (Solved_to s) -> answered f' (Solved_to s') -> renamed row column f f' -> only_optimum f ->
  forall c, In c (names_of_columns f) -> answer_at s' (column c) = answer_at s c.
Proof. exact one_optimum_renamed. Qed.
Print Assumptions C54_one_optimum_renamed.
(** Adding constraints or bounds that all solutions meet changes nothing. *)
Theorem C54_implied : forall f f' a a', file_solvable f -> file_solvable f' -> answered f a -> answered f' a' -> relaxed f f' -> (forall x, ffeasible f' x -> ffeasible f x) -> outcome_of f' a' = outcome_of f a.
Proof. exact implied. Qed.
Print Assumptions C54_implied.
(** Measuring a variable in other units changes nothing but the units of its value. *)
Theorem C54_units : forall k col f a a', 0 < k -> (forall g, ~ In (Binary, g, col) (f_bounds f)) -> file_solvable f -> answered f a -> answered (scale_column k col f) a' ->
  outcome_of (scale_column k col f) a' = outcome_of f a.
Proof. exact (fun k col f a a' K NB FS => other_units k col f a a' K NB FS (units_solvable k col f K NB FS)). Qed.
Print Assumptions C54_units.
Theorem C54_one_optimum_units : forall k col f s s', 0 < k -> (forall g, ~ In (Binary, g, col) (f_bounds f)) -> file_solvable f -> answered f (Solved_to s) -> answered (scale_column k col f) (Solved_to s') -> only_optimum f ->
  forall c, In c (names_of_columns f) -> answer_at s' c = in_units k col (answer_at s) c.
Proof. exact (fun k col f s s' K NB FS => one_optimum_units k col f s s' K NB FS (units_solvable k col f K NB FS)). Qed.
Print Assumptions C54_one_optimum_units.
(** Programs with one optimum; one of them with other names and one with other units; and one with a constraint that
    follows from the others. *)
Example C54_one_optimum_case : only_optimum small_file /\ only_optimum looser_file /\ answered looser_file looser_answer /\ answered (scale_column (q 2 1) "YTWO" looser_file) wider_answer /\ (forall g, ~ In (Binary, g, "YTWO") (f_bounds looser_file)).
Proof. exact (conj small_only (conj looser_only (conj (proj1 (proj2 (proj2 case_answered))) (conj wider_answered looser_no_binary)))). Qed.
Example C54_implied_case : file_solvable crowded_file /\ answered crowded_file looser_answer /\ relaxed crowded_file looser_file /\ (forall x, ffeasible looser_file x -> ffeasible crowded_file x).
Proof. exact (conj crowded_solvable (conj crowded_answered (conj crowded_relaxed crowded_implied))). Qed.
(** Writing a number times a variable plus a number instead of a variable changes the cost by what the second number
    costs. *)
Theorem C54_substituted : forall k t col f f' a a', k <> 0 -> file_solvable f -> file_solvable f' -> answered f a -> answered f' a' -> substituted k t col f f' ->
  outcome_of f' a' = shifted (coefficient_of f (cost_row f) col * t) (outcome_of f a).
Proof. exact substitution. Qed.
Print Assumptions C54_substituted.
Theorem C54_one_optimum_substituted : forall k t col f f' s s', k <> 0 -> file_solvable f -> file_solvable f' -> answered f (Solved_to s) -> answered f' (Solved_to s') -> substituted k t col f f' -> only_optimum f ->
  forall c, In c (names_of_columns f) -> answer_at s c = if String.eqb c col then k * answer_at s' c + t else answer_at s' c.
Proof. exact one_optimum_substituted. Qed.
Print Assumptions C54_one_optimum_substituted.
(** A program with a variable turned around. *)
Example C54_substituted_case : file_solvable turned_file /\ answered turned_file turned_answer /\ substituted (q (-1) 1) (q 2 1) "YTWO" looser_file turned_file.
Proof. exact (conj turned_solvable (conj turned_answered turned_substituted)). Qed.
