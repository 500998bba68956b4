(** * Properties of calling methods of a program again (C57)

    [standardize] and [presolve] change the program they are called on; here are the programs after such calls. *)
From Verif Require Import SpecGeneral Pipeline Presolve ExGeneral GeneralQ StandardT ExCalls.
Local Open Scope string_scope.

(** standardizing a program that has been standardized changes nothing, and gives the same counts *)
Theorem C57_again_partial : forall g g' c, general_ok g -> standardize g = Ok (g', c) -> standardize g' = Ok (g', c).
Proof. exact standardize_twice. Qed.
Print Assumptions C57_again_partial.
(** every program that has the shape already is left as it is *)
Theorem C57_shaped_partial : forall g c, general_ok g -> standard_shape g c -> standardize g = Ok (g, c).
Proof. exact standardize_same. Qed.
Print Assumptions C57_shaped_partial.
(** so one may standardize any number of times before solving: the answer and its values stay the same *)
Theorem C57_solved_partial : forall r n fuel k g, general_ok g -> exists g', standardize_times k g = Ok g' /\ solve_general r n fuel g' = solve_general r n fuel g.
Proof.
  exact (fun r n fuel k g P => match times_return k g P with ex_intro _ g' E => ex_intro _ g' (conj E (proj2 (solve_after r n fuel k g g' P E))) end).
Qed.
Print Assumptions C57_solved_partial.
Example C57_case : general_ok ex_general /\ exists g' c, standardize ex_general = Ok (g', c) /\ g_cols g' <> g_cols ex_general.
Proof. exact ex_changed. Qed.

(** Presolving a program that has been standardized does not work: it stores the values of variables that have been moved
    as if they were those of the original variables.  Here x = 2 is required, and the answer is x = 0. *)
Theorem C57_presolve_refuted : exists g g' c fuel s s', general_ok g /\ fresh g /\ standardize g = Ok (g', c) /\
  presolve_and_solve UseRows FirstProfitable fuel g = Ok (Solved_to s) /\ goptimal g (solution_point s) /\
  presolve_and_solve UseRows FirstProfitable fuel g' = Ok (Solved_to s') /\ ~ gfeasible g (solution_point s').
Proof. exact late_refuted. Qed.
Print Assumptions C57_presolve_refuted.
(** with a free variable it panics *)
Theorem C57_presolve_panics_refuted : exists g g' c fuel x, general_ok g /\ fresh g /\ gfeasible g x /\ standardize g = Ok (g', c) /\ presolve fuel g' = PPanic.
Proof.
  exact (match w_late_free_run with ex_intro _ g' (ex_intro _ c (conj E R)) =>
    ex_intro _ w_late_free (ex_intro _ g' (ex_intro _ c (ex_intro _ 100%nat (ex_intro _ _ (conj (proj1 w_late_free_ok) (conj (proj2 w_late_free_ok) (conj w_late_free_point (conj E R)))))))) end).
Qed.
Print Assumptions C57_presolve_panics_refuted.
