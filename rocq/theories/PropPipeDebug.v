(** * Solving a general form in a debug build (C50)

    [solve_general_debug] and [presolve_and_solve_debug] (PipelineD.v) are [solve_general] and [presolve_and_solve]
    (Pipeline.v) with, in addition, the assertions of the source: those of the general form, of the matrix data, of
    the solver and of the translation of the solution.  An assertion that fails is a panic. *)
From Verif Require Import SpecSizes ExGeneral ExSafe ExPreDebug ExPipeDebug PipelineDQ GeneralQ DebugSubG.
Local Open Scope Qc_scope.

(** A debug build gives the answer of a release build: for every program with a variable, every pivot rule and every
    number of iterations.  With the rows of the inverse there has to be an inequality or a coefficient, with the LU
    decomposition there have to be two inequalities ([enough], SpecSizes.v). *)
Theorem C50_partial : forall r n fuel g, general_ok g -> fresh g -> (1 <= nr_vars g)%nat -> enough r g ->
  solve_general_debug r n fuel g = solve_general r n fuel g.
Proof. exact solve_fresh_debug. Qed.
Print Assumptions C50_partial.
(** So it does not panic, with the rows of the inverse. *)
Theorem C50_no_panic : forall n fuel g, general_ok g -> fresh g -> (1 <= nr_vars g)%nat -> (1 <= entries g + inequality_rows g)%nat ->
  solve_general_debug UseRows n fuel g <> Panic.
Proof. exact (fun n fuel g G F V E => eq_ind_r (fun a => a <> Panic) (fresh_rows_no_panic n fuel g G F) (solve_fresh_debug UseRows n fuel g G F V E)). Qed.
Print Assumptions C50_no_panic.
(** Nor does writing the program down. *)
Theorem C50_new : forall o rows cols types b vars names fixed, let g := new_general o rows cols types b vars names fixed in
  general_ok g -> fresh g -> new_general_d o rows cols types b vars names fixed = Ok g.
Proof. exact new_general_debug. Qed.
Print Assumptions C50_new.
(** The same after presolving, if enough remains and the assertion of C49_refuted is left out. *)
Theorem C50_presolved_partial : forall r n fuel g, general_ok g -> fresh g -> (forall g', presolve fuel g = Go g' -> enough r g') ->
  presolve_and_solve_debug all_but_one r n fuel g = presolve_and_solve r n fuel g.
Proof. exact (fun r n fuel g => presolved_debug all_but_one r n fuel g eq_refl). Qed.
Print Assumptions C50_presolved_partial.
(** When the solver leaves out rows, the assertions and subtractions of the filter are right for every column. *)
Theorem C50_filter : forall g c d rm, general_ok g -> standard_shape g c -> derive_matrix_data g c = Ok d ->
  increasing_from 0 rm -> redundant (md_provider d) rm -> filter_ok d rm = true.
Proof. exact filter_debug. Qed.
Print Assumptions C50_filter.
(** Whatever the program is: if a debug build gives an answer, that is the answer of a release build. *)
Theorem C50_answers : forall r n fuel g a, solve_general_debug r n fuel g = Ok a -> solve_general r n fuel g = Ok a.
Proof. exact general_sub. Qed.
Print Assumptions C50_answers.
Theorem C50_presolved_answers : forall on r n fuel g a, presolve_and_solve_debug on r n fuel g = Ok a -> presolve_and_solve r n fuel g = Ok a.
Proof. exact presolved_sub. Qed.
Print Assumptions C50_presolved_answers.
(** Without variables a release build solves the program and a debug build panics (vector/sparse.rs:154). *)
Theorem C50_no_variables_refuted : exists g n fuel s, general_ok g /\ fresh g /\ enough UseRows g /\
  solve_general UseRows n fuel g = Ok (Solved_to s) /\ solve_general_debug UseRows n fuel g = Panic.
Proof. exact (ex_intro _ p_empty (ex_intro _ FirstProfitable (ex_intro _ 20%nat (ex_intro _ (mk_solution 0 []) (conj (proj1 p_empty_ok) (conj (proj2 p_empty_ok) (conj p_empty_enough (conj p_empty_release p_empty_debug)))))))). Qed.
Print Assumptions C50_no_variables_refuted.
(** So too with variables of which nothing is said but 0 = 0. *)
Theorem C50_nothing_said_refuted : exists g n fuel s, general_ok g /\ fresh g /\ (1 <= nr_vars g)%nat /\
  solve_general UseRows n fuel g = Ok (Solved_to s) /\ solve_general_debug UseRows n fuel g = Panic.
Proof. exact (ex_intro _ p_silent (ex_intro _ FirstProfitable (ex_intro _ 20%nat (ex_intro _ (mk_solution 0 [("x"%string, 0)]) (conj (proj1 p_silent_ok) (conj (proj2 p_silent_ok) (conj p_silent_some (conj p_silent_release p_silent_debug)))))))). Qed.
Print Assumptions C50_nothing_said_refuted.

(** ** The hypotheses are met *)
Example C50_met : forall r n, general_ok ex_general /\ fresh ex_general /\ (1 <= nr_vars ex_general)%nat /\ enough r ex_general /\
  solve_general_debug r n 30 ex_general =
    Ok (Solved_to (mk_solution (Q2Qc (1 # 6)) [("x", 1); ("y", Q2Qc (5 # 3)); ("w", Q2Qc (3 # 2))]%string)).
Proof. exact (fun r n => conj (proj1 (ex_general_solved r n)) (conj (proj1 (proj2 (ex_general_solved r n))) (conj (proj1 (Nat.leb_le 1 (nr_vars ex_general)) eq_refl) (conj (ex_general_enough r) (ex_general_debug r n))))). Qed.
Example C50_presolved_met : forall r, general_ok s_main /\ fresh s_main /\ presolve 100 s_main = Go s_main_after /\
  forall g', presolve 100 s_main = Go g' -> enough r g'.
Proof. exact (fun r => conj (proj1 s_main_ok) (conj (proj2 s_main_ok) (conj s_main_run (s_main_enough r)))). Qed.
