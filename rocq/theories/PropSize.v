(** * Properties of the sizes of numbers (C58)

    [size_at_most], [data_size] and [det_bound] are defined in SpecSize.v, [gdata_size] and [general_bound] in
    SpecGSize.v, [fdata_size] and [file_bound] in SpecFSize.v: numerators and denominators in lowest terms,
    data that are multiples of [1/d] with numerators of at most [K], and [m! * K^m].  The bounds do not depend on the
    number of steps. *)
From Verif Require Import SpecSize SpecGSize SpecFSize SizeP GSizeP FSizeP Examples ExSize ExGSize.
From Verif Require Import SpecGeneral Pipeline SpecParse SpecFixed SpecFile TextPipeline TextSolveP FixedP ExAnswers ExFixed.
Local Open Scope Qc_scope.

(** ** Every state of a run
    Values of the basic variables, multipliers of the rows, columns and rows of the inverse that are computed; objective
    value and relative costs. *)
Theorem C58_state : forall d K r n p ph p' k t s, provider_ok p -> data_size d K p -> reach (ops r) (rule n (ops r)) p ph p' k t s ->
  let M := det_bound (p_rows p) K in let M' := ((Z.of_nat (p_rows p) + 1) * (K * M))%Z in
  (forall i, (i < k_rows k)%nat -> size_at_most M (nthq (c_b (t_im t)) i)) /\
  (forall i, (i < k_rows k)%nat -> size_at_most M (nthq (c_mpi (t_im t)) i)) /\
  size_at_most M' (objective_value t) /\
  (forall j, (j < k_cols k)%nat -> size_at_most M' (relative_cost k t j)) /\
  (forall j c, (j < k_cols k)%nat -> generate_column k t j = Ok c -> forall i, (i < k_rows k)%nat -> size_at_most M (den (cci_col _ c) i)) /\
  (forall i w, (i < k_rows k)%nat -> bi_row _ (c_bi (t_im t)) i = Ok w -> forall l, (l < k_rows k)%nat -> size_at_most M (den w l)).
Proof. exact (fun d K r n => reach_sizes d K (ops r) (laws r) _ (rule_laws n (ops r) (laws r))). Qed.
Print Assumptions C58_state.
(** the weights of steepest edge pricing *)
Theorem C58_weights : forall d K r p ph p' k t (s : r_state (rule DescentAlongObjective (ops r))), provider_ok p -> data_size d K p ->
  reach (ops r) (rule DescentAlongObjective (ops r)) p ph p' k t (Some s) ->
  forall j, eligible k (c_basis (t_im t)) j -> exists w, nth_error s j = Some (Some w) /\
    size_at_most ((Z.of_nat (p_rows p) + 1) * (det_bound (p_rows p) K * det_bound (p_rows p) K)) w.
Proof. exact weights_sized. Qed.
Print Assumptions C58_weights.
Example C58_state_case : forall r n, provider_ok ex_size /\ data_size 2 12 ex_size /\ det_bound (p_rows ex_size) 12 = 288%Z /\
  exists k t s, reach (ops r) (rule n (ops r)) ex_size PhaseOne ex_size k t (Some s).
Proof. exact (fun r n => conj ex_size_ok (conj ex_size_data (conj ex_size_bound (ex_size_state r n)))). Qed.

(** ** The reported optimum *)
Theorem C58_optimum : forall d K r n fuel p x, provider_ok p -> data_size d K p -> run r n fuel p = Ok (FiniteOptimum x) ->
  let M := det_bound (p_rows p) K in
  (forall j, size_at_most M (den x j)) /\ size_at_most ((Z.of_nat (p_rows p) + 1) * (K * M)) (objective p (den x)).
Proof. exact run_sizes. Qed.
Print Assumptions C58_optimum.
Example C58_optimum_case : provider_ok ex_size /\ data_size 2 12 ex_size /\ det_bound (p_rows ex_size) 12 = 288%Z /\
  forall r n, run r n 20 ex_size = Ok (FiniteOptimum [(0%nat, Q2Qc (1 # 16)); (1%nat, Q2Qc (13 # 8))]).
Proof. exact (conj ex_size_ok (conj ex_size_data (conj ex_size_bound ex_size_runs))). Qed.

(** ** General form programs and files *)
Theorem C58_general : forall d K r n fuel g s, general_ok g -> fresh g -> gdata_size d K g -> solve_general r n fuel g = Ok (Solved_to s) ->
  let M := general_bound g K in
  (forall name v, In (name, v) (s_values s) -> size_at_most (4 * (K * M)) v) /\
  size_at_most ((4 * Z.of_nat (nr_vars g) + 2) * (K * K * M)) (s_objective s).
Proof. exact general_sizes. Qed.
Print Assumptions C58_general.
Theorem C58_text : forall d K b f text r n fuel s, file_ok f -> file_solvable f -> spells text f -> fdata_size d K f ->
  solve_text b r n fuel text = Got (Ok (Solved_to s)) ->
  let M := file_bound f K in
  (forall c, In c (map fst (columns_of f)) -> size_at_most (8 * (K * M)) (answer_at s c)) /\
  size_at_most ((16 * Z.of_nat (length (columns_of f)) + 8) * (K * K * M)) (s_objective s).
Proof. exact (fun d K b f text r n fuel s OK FS T => with_sizes d K (parse_free b) f text r n fuel s FS (text_reads b f text OK T)). Qed.
Print Assumptions C58_text.
Theorem C58_fixed_text : forall d K b f text r n fuel s, fixed_ok f -> file_solvable f -> fixed_spells text f -> fdata_size d K f ->
  solve_fixed_text b r n fuel text = Got (Ok (Solved_to s)) ->
  let M := file_bound f K in
  (forall c, In c (map fst (columns_of f)) -> size_at_most (8 * (K * M)) (answer_at s c)) /\
  size_at_most ((16 * Z.of_nat (length (columns_of f)) + 8) * (K * K * M)) (s_objective s).
Proof. exact (fun d K b f text r n fuel s OK FS T => with_sizes d K (parse_fixed b) f text r n fuel s FS (fixed_read b f text OK T)). Qed.
Print Assumptions C58_fixed_text.
Example C58_general_case : general_ok ex_gsize /\ fresh ex_gsize /\ gdata_size 2 12 ex_gsize /\
  forall r n, solve_general r n 30 ex_gsize = Ok (Solved_to (mk_solution (Q2Qc (-27 # 16)) [("x", Q2Qc (1 # 16)); ("y", Q2Qc (13 # 8))]%string)).
Proof. exact (conj (proj1 ex_gsize_ok) (conj (proj2 ex_gsize_ok) (conj ex_gsize_data ex_gsize_solved))). Qed.
Example C58_text_case : file_ok largest_file /\ file_solvable largest_file /\ spells largest largest_file /\ fdata_size 1 4 largest_file /\
  forall b r n, exists s, solve_text b r n 40 largest = Got (Ok (Solved_to s)) /\ s_values s = [("X", ExParse.q 1 1); ("Y", ExParse.q 3 1)]%string.
Proof. exact (conj largest_ok (conj largest_solvable (conj largest_spelled (conj largest_size largest_solved)))). Qed.
Example C58_fixed_text_case : fixed_ok fixed_file /\ file_solvable fixed_file /\ fixed_spells fixed_sample fixed_file /\ fdata_size 2 14 fixed_file /\
  forall b r n, exists s, solve_fixed_text b r n 40 fixed_sample = Got (Ok (Solved_to s)).
Proof. exact (conj fixed_file_ok (conj fixed_solvable (conj fixed_sample_spelled (conj fixed_size (fun b r n => ex_intro _ _ (fixed_solved b r n)))))). Qed.
