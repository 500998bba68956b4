(** * Properties of presolving in every run, and in a debug build (C24, C49)

    [presolve_d on fuel g] (PresolveD.v) is presolving as in [presolve] with, in addition, the assertions of the
    source that [on] selects among the 42 places ([site]) that have one: [presolve_debug] evaluates all of them,
    as a debug build does.  An assertion that fails is a panic, [PPanic]. *)
From Verif Require Import SpecGeneral SpecSizes ExPresolve ExSafe ExPreDebug PresolveDP PreAny.
Local Open Scope Qc_scope.

(** ** C49: a debug build presolves like a release build *)
(** With no assertion there is no difference, on any program whatever. *)
Theorem C49_release : forall fuel g, presolve_d no_sites fuel g = presolve fuel g.
Proof. exact presolve_release. Qed.
Print Assumptions C49_release.
(** Assertions do nothing but panic, on any program whatever. *)
Theorem C49_or_panics : forall on fuel g, presolve_d on fuel g = PPanic \/ presolve_d on fuel g = presolve fuel g.
Proof. exact (fun on fuel g => presolve_debug_or fuel g on). Qed.
Print Assumptions C49_or_panics.
(** Of the 42 assertions, 41 never fail.  Missing: the one that says that a variable taken from the queue of slack
    variables is not fixed (rule/slack.rs:75). *)
Theorem C49_partial : forall fuel g, general_ok g -> fresh g -> presolve_d all_but_one fuel g = presolve fuel g.
Proof. exact (fun fuel g G F => proj1 (presolve_agree all_but_one g eq_refl G F fuel)). Qed.
Print Assumptions C49_partial.
(** That one fails: here a release build finds an optimum, and a debug build panics. *)
Theorem C49_refuted : exists g fuel s, general_ok g /\ fresh g /\ presolve fuel g = Stop (VOptimum s) /\ presolve_debug fuel g = PPanic.
Proof. exact (ex_intro _ d_fixed (ex_intro _ 100%nat (ex_intro _ d_fixed_solution (conj (proj1 d_fixed_ok) (conj (proj2 d_fixed_ok) (conj d_fixed_run d_fixed_debug)))))). Qed.
Print Assumptions C49_refuted.

(** ** C24: presolving in every run *)
(** Whatever the rules do, the program that remains is consistent, has the same objective and the same original
    variables, and no removed variable is a function of itself. *)
Theorem C24_remaining : forall fuel g g', general_ok g -> fresh g -> presolve fuel g = Go g' ->
  general_ok g' /\ g_objective g' = g_objective g /\ map fst (g_orig g') = map fst (g_orig g) /\ StandardR.acyclic (g_orig g').
Proof. exact any_kept. Qed.
Print Assumptions C24_remaining.
(** A result is reached: from some number of iterations on it is always the same. *)
Theorem C24_result : forall g, general_ok g -> fresh g ->
  exists result fuel0, result <> PFuel /\ forall fuel, (fuel0 <= fuel)%nat -> presolve fuel g = result.
Proof. exact any_settles. Qed.
Print Assumptions C24_result.
(** The panic of C24_refuted is the only one: if presolving, or solving afterwards with the rows of the inverse,
    panics, then the run got to a range constraint of which the smallest possible value is the right-hand side
    ([gets_stuck], PreAgreeWhole.v). *)
Theorem C24_only_panic : forall n fuel g, general_ok g -> fresh g ->
  presolve fuel g = PPanic \/ presolve_and_solve UseRows n fuel g = Panic -> gets_stuck g.
Proof. exact (fun n fuel g G F H => match H with or_introl E => any_panic fuel g G F E | or_intror E => any_solve n fuel g G F E end). Qed.
Print Assumptions C24_only_panic.
(** A program of which all constraints are <= or >= never gets there: presolving does not panic, ... *)
Theorem C24_inequalities : forall fuel g, general_ok g -> fresh g ->
  (forall i, (i < g_rows g)%nat -> row_type g i = Less \/ row_type g i = Greater) -> presolve fuel g <> PPanic.
Proof. exact inequalities_calm. Qed.
Print Assumptions C24_inequalities.
(** ... nor does solving afterwards, which reaches an answer. *)
Theorem C24_inequalities_solved : forall g, general_ok g -> fresh g ->
  (forall i, (i < g_rows g)%nat -> row_type g i = Less \/ row_type g i = Greater) ->
  (forall n fuel, presolve_and_solve UseRows n fuel g <> Panic) /\
  exists fuel0 a, forall fuel, (fuel0 <= fuel)%nat -> presolve_and_solve UseRows FirstProfitable fuel g = Ok a.
Proof. exact inequalities_solve. Qed.
Print Assumptions C24_inequalities_solved.
(** With the LU decomposition, if at least two inequalities remain ([inequality_rows], SpecSizes.v). *)
Theorem C24_lu_partial : forall n fuel g g', general_ok g -> fresh g -> presolve fuel g = Go g' -> (2 <= inequality_rows g')%nat -> presolve_and_solve UseLU n fuel g <> Panic.
Proof. exact any_solve_lu. Qed.
Print Assumptions C24_lu_partial.

(** ** The hypotheses are met *)
Example C49_met : general_ok s_main /\ fresh s_main /\ presolve 100 s_main = Go s_main_after /\ presolve_debug 100 s_main = Go s_main_after.
Proof. exact (conj (proj1 s_main_ok) (conj (proj2 s_main_ok) (conj s_main_run s_main_debug))). Qed.
Example C24_inequalities_met : general_ok d_fixed /\ fresh d_fixed /\ (forall i, (i < g_rows d_fixed)%nat -> row_type d_fixed i = Less \/ row_type d_fixed i = Greater) /\
  presolve_and_solve UseRows FirstProfitable 100 d_fixed = Ok (Solved_to d_fixed_solution).
Proof. exact (conj (proj1 d_fixed_ok) (conj (proj2 d_fixed_ok) (conj d_fixed_inequalities d_fixed_solved))). Qed.
Example C24_only_panic_met : general_ok w_panic /\ fresh w_panic /\ presolve 100 w_panic = PPanic.
Proof. exact (conj (proj1 w_panic_ok) (conj (proj2 w_panic_ok) w_panic_run)). Qed.
