(** * Properties of reading numbers and of converting MPS programs (C30 - C32, C37)

    The specification is SpecMps.v: [stated m j t] says that the program has bound statement [t] for variable [j],
    [allows t x] what it asks of a value, [given_rhs] and [given_range] which right-hand sides and ranges are given,
    [range_holds] is the table of the MPS format, [literal_text] and [literal_value] are the text and the value of a
    decimal literal.  [mps_ok] is what every parser guarantees: indices exist, costs are in order, no
    semi-continuous bounds. *)
From Verif Require Import SpecMps NumberP ConvertP MpsP ExMps MpsQ Examples ExGeneral Pipeline ExMet.
Local Open Scope Qc_scope.

(** ** C30: bounds *)
(** the values a variable may take are exactly those that every statement allows, and not negative if no statement sets or removes the lower bound *)
Theorem C30_intersection : forall m g j x, mps_ok m -> to_general m = Got g -> (j < length (m_columns m))%nat ->
  (in_bounds (var g j) x <-> (forall t, stated m j t -> allows t x) /\ ((forall t, stated m j t -> leaves_lower t) -> 0 <= x)).
Proof. exact (fun m g j x OK => convert_bounds m OK g j x). Qed.
Print Assumptions C30_intersection.
(** also when the bounds contradict each other *)
Theorem C30_lower_is_stated : forall m g j l, mps_ok m -> to_general m = Got g -> (j < length (m_columns m))%nat -> v_lower (var g j) = Some l ->
  (exists t, stated m j t /\ low_of t = Some l) \/ (l = 0 /\ forall t, stated m j t -> leaves_lower t).
Proof. exact converted_lower. Qed.
Print Assumptions C30_lower_is_stated.
Theorem C30_upper_is_stated : forall m g j u, mps_ok m -> to_general m = Got g -> (j < length (m_columns m))%nat -> v_upper (var g j) = Some u ->
  exists t, stated m j t /\ up_of t = Some u.
Proof. exact converted_upper. Qed.
Print Assumptions C30_upper_is_stated.
Theorem C30_free_and_bounded_rejected : forall m j t, mps_ok m -> stated m j Free -> stated m j t -> t <> Free -> to_general m = Rejected Inconsistent.
Proof. exact free_rejected. Qed.
Print Assumptions C30_free_and_bounded_rejected.
(** nothing is rejected because of its bounds otherwise *)
Theorem C30_others_accepted : forall m, mps_ok m -> mps_consistent m /\ ~ repeated_range_rhs m -> exists g, to_general m = Got g.
Proof. exact (fun m OK => proj1 (convert_decides m OK)). Qed.
Print Assumptions C30_others_accepted.
Theorem C30_integer : forall m g j, mps_ok m -> to_general m = Got g -> (j < length (m_columns m))%nat ->
  (v_integer (var g j) = true <-> col_integer (nth j (m_columns m) (mk_mcolumn "" false [])) = true \/ exists t, stated m j t /\ makes_integer t).
Proof. exact converted_integer. Qed.
Print Assumptions C30_integer.
Example C30_case : mps_ok ex_mps /\ (exists g, to_general ex_mps = Got g) /\ mps_ok ex_conflict /\ stated ex_conflict 0 Free /\ stated ex_conflict 0 (UpperContinuous (zq 4)).
Proof. exact (conj ex_mps_ok (conj ex_mps_converts ex_conflict_case)). Qed.

(** ** C31: right-hand sides and ranges *)
(** rows with a range and a right-hand side are read as documented; without a right-hand side see below *)
Theorem C31_range_partial : forall m g i r b, mps_ok m -> to_general m = Got g -> given_range m i r -> given_rhs m i b -> forall v,
  rel_holds (row_type g i) (nthq (g_b g) i) v <-> range_holds (kind_of m i) b r v.
Proof. exact converted_ranges. Qed.
Print Assumptions C31_range_partial.
(** rows without a range: all given right-hand sides hold, zero is the default *)
Theorem C31_no_range : forall m g i, mps_ok m -> to_general m = Got g -> (i < length (m_rows m))%nat -> (forall r, ~ given_range m i r) -> forall v,
  rel_holds (row_type g i) (nthq (g_b g) i) v <->
  (forall b, given_rhs m i b \/ (b = 0 /\ forall c, ~ given_rhs m i c) -> plain_holds (kind_of m i) b v).
Proof. exact converted_rows. Qed.
Print Assumptions C31_no_range.
(** with the default right-hand side, only less or equal rows with a range that is not negative are read as documented *)
Theorem C31_default_partial : forall m g i r, mps_ok m -> to_general m = Got g -> kind_of m i = KLess -> given_range m i r -> 0 <= r -> (forall b, ~ given_rhs m i b) -> forall v,
  rel_holds (row_type g i) (nthq (g_b g) i) v <-> range_holds KLess 0 r v.
Proof. exact converted_default_less. Qed.
Print Assumptions C31_default_partial.
(** a greater or equal row without a right-hand side gets the interval below zero *)
Theorem C31_default_greater_refuted : exists m g i r v, mps_ok m /\ to_general m = Got g /\ kind_of m i = KGreater /\ given_range m i r /\ 0 < r /\ (forall b, ~ given_rhs m i b) /\
  range_holds KGreater 0 r v /\ ~ rel_holds (row_type g i) (nthq (g_b g) i) v.
Proof. exact default_greater_wrong. Qed.
Print Assumptions C31_default_greater_refuted.
Theorem C31_default_equal_refuted : exists m g i r v, mps_ok m /\ to_general m = Got g /\ kind_of m i = KEqual /\ given_range m i r /\ 0 < r /\ (forall b, ~ given_rhs m i b) /\
  range_holds KEqual 0 r v /\ ~ rel_holds (row_type g i) (nthq (g_b g) i) v.
Proof. exact default_equal_wrong. Qed.
Print Assumptions C31_default_equal_refuted.
(** a negative range without a right-hand side makes a row that no value satisfies *)
Theorem C31_default_negative_refuted : forall k, exists m g i r v, mps_ok m /\ to_general m = Got g /\ kind_of m i = k /\ given_range m i r /\ r < 0 /\ (forall b, ~ given_rhs m i b) /\
  range_holds k 0 r v /\ forall w, ~ rel_holds (row_type g i) (nthq (g_b g) i) w.
Proof. exact default_negative_wrong. Qed.
Print Assumptions C31_default_negative_refuted.
(** which programs are rejected *)
Theorem C31_decides : forall m, mps_ok m ->
  (mps_consistent m /\ ~ repeated_range_rhs m -> exists g, to_general m = Got g) /\
  (~ (mps_consistent m /\ ~ repeated_range_rhs m) -> to_general m = Rejected Inconsistent).
Proof. exact convert_decides. Qed.
Print Assumptions C31_decides.
(** an equality row with a positive range whose right-hand side is given twice, with the same value, is rejected *)
Theorem C31_repeated_rhs_refuted : exists m, mps_ok m /\ mps_consistent m /\ to_general m = Rejected Inconsistent.
Proof. exact repeated_rejected. Qed.
Print Assumptions C31_repeated_rhs_refuted.
Example C31_case : mps_ok ex_mps /\ (exists g, to_general ex_mps = Got g) /\ given_range ex_mps 2 (zq (-1)) /\ given_rhs ex_mps 2 (zq 4) /\ given_rhs ex_mps 0 (zq 10) /\ given_rhs ex_mps 0 (zq 8).
Proof. exact (conj ex_mps_ok (conj ex_mps_converts ex_mps_given)). Qed.

(** ** C32: numbers *)
(** decimal literals that fit in 64 bits, in both kinds of builds *)
Theorem C32_exact : forall b l, literal_ok l -> parse_number b (literal_text l) = Got (literal_value l).
Proof. exact number_exact. Qed.
Print Assumptions C32_exact.
(** what is accepted when overflow is checked: besides literals, a plus before the digits of either part, and parts without digits *)
Theorem C32_accepted_partial : forall text v, parse_number Checked text = Got v <-> text <> EmptyString /\ accepted text v.
Proof. exact number_accepted. Qed.
Print Assumptions C32_accepted_partial.
(** texts of another shape are rejected *)
Theorem C32_rejected_partial : forall b c t, (N_of_ascii c < 128)%N -> ~ number_shaped (String c t) -> parse_number b (String c t) = Rejected Syntax.
Proof. exact number_rejected. Qed.
Print Assumptions C32_rejected_partial.
Theorem C32_foreign_character_rejected : forall b c t x, (N_of_ascii c < 128)%N -> In x (list_ascii_of_string (String c t)) -> ~ number_char x ->
  parse_number b (String c t) = Rejected Syntax.
Proof. exact foreign_rejected. Qed.
Print Assumptions C32_foreign_character_rejected.
(** texts that are not literals are read as numbers *)
Theorem C32_other_texts_refuted : forall b, parse_number b "1.+5" = Got (Q2Qc (21 # 20)) /\ parse_number b "-" = Got 0 /\ parse_number b "." = Got 0 /\ parse_number b "+5" = Got (zq 5) /\
  forall l, literal_ok l -> literal_text l <> "1.+5"%string /\ literal_text l <> "-"%string /\ literal_text l <> "."%string /\ literal_text l <> "+5"%string.
Proof. exact non_literals_accepted. Qed.
Print Assumptions C32_other_texts_refuted.
Theorem C32_empty_refuted : forall b, parse_number b "" = Crashed.
Proof. exact empty_crashes. Qed.
Print Assumptions C32_empty_refuted.
(** 0.00000000000000000001 is read as another number, or is a panic *)
Theorem C32_overflow_refuted : exists v, parse_number Wrapping (literal_text tiny) = Got v /\ v <> literal_value tiny /\ parse_number Checked (literal_text tiny) = Crashed /\
  all_digits (lit_whole tiny) /\ all_digits (fraction_of tiny) /\ (decimal (lit_whole tiny ++ fraction_of tiny) < two64)%Z.
Proof. exact tiny_wrong. Qed.
Print Assumptions C32_overflow_refuted.
Example C32_case : literal_ok ex_literal /\ literal_text ex_literal = "-12.050"%string /\ literal_value ex_literal = Q2Qc (-241 # 20).
Proof. exact ex_literal_case. Qed.
Example C32_rejected_case : parse_number Checked "12e3" = Rejected Syntax /\ parse_number Checked "1.2.3" = Rejected Syntax /\ parse_number Checked "18446744073709551616" = Rejected Syntax.
Proof. exact ex_shape_rejected. Qed.

(** ** C37: from an MPS program to the answer of the solver, without presolving *)
(** a converted program has the feasible points and costs of the MPS program *)
Theorem C37_meaning : forall m g, mps_ok m -> to_general m = Got g -> (forall i r, given_range m i r -> exists b, given_rhs m i b) ->
  g_objective g = m_objective m /\ map fst (g_orig g) = map col_name (m_columns m) /\
  (forall x, gfeasible g x <-> mfeasible m x) /\ (forall x, gcost g x = mcost m x).
Proof. exact converted_meaning. Qed.
Print Assumptions C37_meaning.
Theorem C37_coefficients : forall m g, mps_ok m -> to_general m = Got g -> g_rows g = length (m_rows m) /\ nr_vars g = length (m_columns m) /\ forall i j, coefficient g i j = mcoefficient m i j.
Proof. exact converted_sizes. Qed.
Print Assumptions C37_coefficients.
(** what the pipeline (C16 to C21) asks of a program *)
Theorem C37_contract : forall m g, mps_solvable m -> to_general m = Got g -> general_ok g /\ fresh g.
Proof. exact convert_solvable. Qed.
Print Assumptions C37_contract.
Theorem C37_optimum : forall m g r rule fuel s, mps_solvable m -> to_general m = Got g -> m_objective m = Minimize -> solve_general r rule fuel g = Ok (Solved_to s) ->
  map fst (s_values s) = map col_name (m_columns m) /\ moptimal m (solution_point s) /\ s_objective s = mcost m (solution_point s).
Proof. exact solved_minimum. Qed.
Print Assumptions C37_optimum.
(** the reported objective value is wrong for maximization, see C21 *)
Theorem C37_maximum_partial : forall m g r rule fuel s, mps_solvable m -> to_general m = Got g -> m_objective m = Maximize -> solve_general r rule fuel g = Ok (Solved_to s) ->
  map fst (s_values s) = map col_name (m_columns m) /\ moptimal m (solution_point s).
Proof. exact solved_maximum. Qed.
Print Assumptions C37_maximum_partial.
Theorem C37_infeasible : forall m g r rule fuel, mps_solvable m -> to_general m = Got g -> solve_general r rule fuel g = Ok NoSolution -> forall x, ~ mfeasible m x.
Proof. exact solved_none. Qed.
Print Assumptions C37_infeasible.
Theorem C37_unbounded : forall m g r rule fuel, mps_solvable m -> to_general m = Got g -> solve_general r rule fuel g = Ok NoBound -> munbounded m.
Proof. exact solved_unbounded. Qed.
Print Assumptions C37_unbounded.
Example C37_other_cases : (exists m g, mps_solvable m /\ to_general m = Got g /\ forall r n, solve_general r n 40 g = Ok NoSolution) /\
  (exists m g, mps_solvable m /\ to_general m = Got g /\ forall r n, solve_general r n 40 g = Ok NoBound).
Proof. exact read_cases. Qed.
Theorem C37_terminates : forall m g, mps_solvable m -> to_general m = Got g ->
  exists fuel a, forall fuel', (fuel <= fuel')%nat -> solve_general UseRows FirstProfitable fuel' g = Ok a.
Proof. exact solve_read_terminates. Qed.
Print Assumptions C37_terminates.
Example C37_case : mps_solvable ex_mps /\ exists g, to_general ex_mps = Got g /\ forall r n, solve_general r n 40 g = Ok (Solved_to ex_mps_answer).
Proof. exact (conj ex_mps_solvable ex_mps_solved). Qed.
