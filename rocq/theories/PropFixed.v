(** * Properties of reading MPS files in fixed format (C41)

    The specification is SpecFixed.v on top of SpecParse.v and SpecFile.v: [fixed_spells text f] says that the text is
    written in fixed format with content [f], with names at the left and numbers at the right of their fields.
    [fixed_ok] lists the rules for contents: names of at most eight characters, and references to rows and columns
    that are there.  [describes m f] says that the structure [m] has exactly the content [f]. *)
From Verif Require Import SpecFixed SpecFile TextPipeline FixedP AcceptFixedP TextSolveP ExFixed ExAnswers ExMet.
Local Open Scope string_scope.
Local Open Scope list_scope.

(** missing: the layouts of the refutations below, that fixed format allows *)
Theorem C41_read_partial : forall b f text, fixed_ok f -> fixed_spells text f -> exists m, parse_fixed b text = Got m /\ describes m f.
Proof. exact fixed_read. Qed.
Print Assumptions C41_read_partial.
(** everything that is accepted is found in the fields of the text, and meets the rules except for those of C33.  The
    lines of an accepted text may have the looser layout of [fixed_loosely_spells]. *)
Theorem C41_accepted_partial : forall text m, parse_fixed Checked text = Got m ->
  exists f, fixed_loosely_spells text f /\ file_consistent f /\ (NoDup (map fst (m_costs m)) -> describes m f).
Proof. exact fixed_accepted. Qed.
Print Assumptions C41_accepted_partial.
(** reading, converting and solving gives the optimum of the program that the text asks *)
Theorem C41_optimum_partial : forall b f text r n fuel s, fixed_ok f -> file_solvable f -> fixed_spells text f -> fsense f = Minimize -> solve_fixed_text b r n fuel text = Got (Ok (Solved_to s)) ->
  map fst (s_values s) = map fst (columns_of f) /\ foptimal f (answer_at s) /\ s_objective s = fcost f (answer_at s).
Proof. exact (fun b f text r n fuel s OK FS T M E => let (A, B) := with_optimum (parse_fixed b) f text r n fuel s FS (fixed_read b f text OK T) E in let (B, C) := B in conj A (conj B (C M))). Qed.
Print Assumptions C41_optimum_partial.
Theorem C41_infeasible_partial : forall b f text r n fuel, fixed_ok f -> file_solvable f -> fixed_spells text f -> solve_fixed_text b r n fuel text = Got (Ok NoSolution) -> forall x, ~ ffeasible f x.
Proof. exact (fun b f text r n fuel OK FS T => with_none (parse_fixed b) f text r n fuel FS (fixed_read b f text OK T)). Qed.
Print Assumptions C41_infeasible_partial.
Theorem C41_unbounded_partial : forall b f text r n fuel, fixed_ok f -> file_solvable f -> fixed_spells text f -> solve_fixed_text b r n fuel text = Got (Ok NoBound) -> funbounded f.
Proof. exact (fun b f text r n fuel OK FS T => with_unbounded (parse_fixed b) f text r n fuel FS (fixed_read b f text OK T)). Qed.
Print Assumptions C41_unbounded_partial.
Example C41_infeasible_case : fixed_ok no_point_file /\ file_solvable no_point_file /\ fixed_spells no_point no_point_file /\ forall b r n, solve_fixed_text b r n 40 no_point = Got (Ok NoSolution).
Proof. exact no_point_fixed_case. Qed.
Example C41_unbounded_case : fixed_ok no_bound_file /\ file_solvable no_bound_file /\ fixed_spells no_bound no_bound_file /\ forall b r n, solve_fixed_text b r n 40 no_bound = Got (Ok NoBound).
Proof. exact no_bound_fixed_case. Qed.
Theorem C41_terminates_partial : forall b f text, fixed_ok f -> file_solvable f -> fixed_spells text f ->
  exists fuel a, forall fuel', (fuel <= fuel')%nat -> solve_fixed_text b UseRows FirstProfitable fuel' text = Got (Ok a).
Proof. exact (fun b f text OK FS T => with_terminates (parse_fixed b) f text FS (fixed_read b f text OK T)). Qed.
Print Assumptions C41_terminates_partial.
Example C41_case : fixed_ok fixed_file /\ file_solvable fixed_file /\ fixed_spells fixed_sample fixed_file /\ fsense fixed_file = Minimize /\
  forall b r n, solve_fixed_text b r n 40 fixed_sample = Got (Ok fixed_answer).
Proof. exact (conj fixed_file_ok (conj fixed_solvable (conj fixed_sample_spelled (conj eq_refl fixed_solved)))). Qed.
(** a second pair whose number does not reach the end of its field is left out: field 6 has the value 2.0 at its left *)
Theorem C41_second_pair_refuted : forall b, (exists m, parse_fixed b dropped = Got m /\ map fst (said_coefficients m) = [("X", "COST")]) /\
  exists m, parse_free b dropped = Got m /\ map fst (said_coefficients m) = [("X", "LIM"); ("X", "COST")].
Proof. exact dropped_read. Qed.
Print Assumptions C41_second_pair_refuted.
(** a bound without value on a line that ends after the name of the column stops the program *)
Theorem C41_short_bound_refuted : forall b, parse_fixed b short_bound = Crashed /\ exists m, parse_free b short_bound = Got m /\ said_bounds m = [(Free, "BND", "X")].
Proof. exact short_bound_read. Qed.
Print Assumptions C41_short_bound_refuted.
(** the type of a row in the second column of field 1 is not found *)
Theorem C41_row_type_refuted : forall b, parse_fixed b third_column = Rejected Syntax /\ exists m, parse_free b third_column = Got m /\ m_cost_name m = "COST" /\ map row_name (m_rows m) = ["LIM"].
Proof. exact third_column_read. Qed.
Print Assumptions C41_row_type_refuted.
(** a number at the left of field 4 is not read *)
Theorem C41_left_number_refuted : forall b, parse_fixed b left_number = Rejected Syntax /\ exists m, parse_free b left_number = Got m /\ map fst (said_coefficients m) = [("X", "LIM"); ("X", "COST")].
Proof. exact left_number_read. Qed.
Print Assumptions C41_left_number_refuted.
(** an empty field 4 stops the program, where the free format reports an error *)
Theorem C41_empty_number_refuted : forall b, parse_fixed b blank_number = Crashed /\ parse_free b blank_number = Rejected Syntax.
Proof. exact blank_number_read. Qed.
Print Assumptions C41_empty_number_refuted.
