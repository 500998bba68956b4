(** * Reported optima are vertices (C44, C55)

    [vertex], [extreme], [optimal] and [feasible] are in Spec.v.  [run] is `solve_relaxation`, [start_from] starts phase two
    from a chosen basis (C42). *)
From Verif Require Import SpecVertex TextPipeline FileP SpecFixed FixedP TextSolveP VertexP ExVertex ExGeneral ExFile ExTextPresolve VertexG ExVertexG.
Local Open Scope Qc_scope.

(** The columns in which the reported optimum is not zero are independent, also when rows were removed on the way, and
    there are at most as many of them as rows. *)
Theorem C44_vertex : forall r n fuel p x, provider_ok p -> run r n fuel p = Ok (FiniteOptimum x) ->
  vertex p (den x) /\ (length x <= p_rows p)%nat.
Proof. exact run_vertex. Qed.
Print Assumptions C44_vertex.
Theorem C44_start_vertex : forall r n fuel p basis x, well_sized p -> feasible_basis p basis ->
  start_from r n fuel p basis = Ok (FiniteOptimum x) -> vertex p (den x) /\ (length x <= p_rows p)%nat.
Proof. exact start_vertex. Qed.
Print Assumptions C44_start_vertex.
(** It is an extreme point of the solutions: not strictly between two others. *)
Theorem C44_extreme : forall r n fuel p x, provider_ok p -> run r n fuel p = Ok (FiniteOptimum x) -> extreme p (den x).
Proof. exact run_extreme. Qed.
Print Assumptions C44_extreme.
Theorem C44_start_extreme : forall r n fuel p basis x, well_sized p -> feasible_basis p basis ->
  start_from r n fuel p basis = Ok (FiniteOptimum x) -> extreme p (den x).
Proof. exact start_extreme. Qed.
Print Assumptions C44_start_extreme.
(** It is the only solution that is zero wherever it is zero. *)
Theorem C44_determined : forall r n fuel p x z, provider_ok p -> run r n fuel p = Ok (FiniteOptimum x) ->
  feasible p z -> (forall j, (j < p_cols p)%nat -> den x j = 0 -> z j = 0) -> forall j, (j < p_cols p)%nat -> z j = den x j.
Proof. exact run_determined. Qed.
Print Assumptions C44_determined.

(** a problem with optima that are neither *)
Example C44_case : provider_ok ex_line /\ (forall r, run r FirstProfitable 10 ex_line = Ok (FiniteOptimum [(0%nat, zq 2)])) /\
  optimal ex_line ex_middle /\ ~ vertex ex_line ex_middle /\ ~ extreme ex_line ex_middle.
Proof. exact (conj ex_line_ok (conj ex_line_runs (conj ex_middle_optimal (conj ex_middle_not_vertex ex_middle_not_extreme)))). Qed.
Example C44_start_case : well_sized ex_warm /\ feasible_basis ex_warm [2; 0]%nat /\
  (forall r n, start_from r n 10 ex_warm [2; 0]%nat = Ok (FiniteOptimum [(0%nat, 1); (1%nat, zq 3)])).
Proof. exact (conj ex_warm_sized (conj ex_warm_feasible ex_warm_runs)). Qed.

(** ** Programs in general form and files, when every variable has a bound ([gextreme] and [fextreme] are in SpecVertex.v) *)
Theorem C55_general_partial : forall r n fuel g s, general_ok g -> fresh g -> bounded g -> solve_general r n fuel g = Ok (Solved_to s) -> gextreme g (solution_point s).
Proof. exact fresh_extreme. Qed.
Print Assumptions C55_general_partial.
Theorem C55_text_partial : forall b f text r n fuel s, file_ok f -> file_solvable f -> spells text f -> fbounded f ->
  solve_text b r n fuel text = Got (Ok (Solved_to s)) -> fextreme f (answer_at s).
Proof. exact (fun b f text r n fuel s OK FS T FB => with_extreme (parse_free b) f text r n fuel s FS (text_reads b f text OK T) FB). Qed.
Print Assumptions C55_text_partial.
Theorem C55_fixed_text_partial : forall b f text r n fuel s, fixed_ok f -> file_solvable f -> fixed_spells text f -> fbounded f ->
  solve_fixed_text b r n fuel text = Got (Ok (Solved_to s)) -> fextreme f (answer_at s).
Proof. exact (fun b f text r n fuel s OK FS T FB => with_extreme (parse_fixed b) f text r n fuel s FS (fixed_read b f text OK T) FB). Qed.
Print Assumptions C55_fixed_text_partial.
(** A program with a free variable may have a vertex that is optimal while the reported optimum is none. *)
Theorem C55_refuted : exists g s x, general_ok g /\ fresh g /\ (forall r n, solve_general r n 10 g = Ok (Solved_to s)) /\
  goptimal g x /\ gextreme g x /\ ~ gextreme g (solution_point s).
Proof. exact (ex_intro _ ex_ray (ex_intro _ ray_answer (ex_intro _ (fun _ => zq 5) (conj (proj1 ray_ok) (conj (proj2 ray_ok) (conj ray_solved (conj (proj1 ray_vertex) (conj (proj2 ray_vertex) ray_middle)))))))). Qed.
Print Assumptions C55_refuted.
Example C55_text_case : file_ok wrong_file /\ file_solvable wrong_file /\ spells wrong_text wrong_file /\ fbounded wrong_file /\
  (forall b r n, solve_text b r n 40 wrong_text = Got (Ok (Solved_to wrong_optimum))) /\
  ~ fextreme wrong_file (fun c => if String.eqb c "X" then ExParse.q 5 1 else 1).
Proof. exact (conj wrong_ok (conj wrong_solvable (conj wrong_spelled (conj wrong_bounded (conj wrong_solved wrong_middle))))). Qed.
Example C55_general_case : general_ok ex_shape /\ fresh ex_shape /\ bounded ex_shape /\ exists s, solve_general UseRows FirstProfitable 20 ex_shape = Ok (Solved_to s).
Proof. split; [|split; [|split; [exact shape_bounded|eexists; vm_compute; reflexivity]]]; apply new_ok; vm_compute; reflexivity. Qed.
