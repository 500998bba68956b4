(** * Properties of the sizes of numbers with presolving and from a chosen basis (C58)

    [size_at_most], [data_size] and [det_bound] are defined in SpecSize.v, [gdata_size] and [general_bound] in
    SpecGSize.v, [fdata_size] and [file_bound] in SpecFSize.v, [well_sized] and [feasible_basis] in SpecWarm.v, [safe_run]
    and [safe_text] in SafeRun.v and TextPresolve.v. *)
From Verif Require Import PreSafe TextPresolve TextPresolveP.
From Verif Require Import SpecSize SpecGSize SpecFSize SpecWarm Warm WarmSizeP PreSizeP ExSize ExGSize ExWarm ExPreSize.
From Verif Require Import SpecGeneral Pipeline SpecParse SpecFixed SpecFile TextPipeline TextSolveP FixedP ExFile ExAnswers ExFixed ExTextPresolve.
Local Open Scope Qc_scope.

(** ** From a chosen basis *)
Theorem C58_start : forall d K r n fuel p basis x, well_sized p -> feasible_basis p basis -> data_size d K p ->
  start_from r n fuel p basis = Ok (FiniteOptimum x) ->
  let M := det_bound (p_rows p) K in
  (forall j, size_at_most M (den x j)) /\ size_at_most ((Z.of_nat (p_rows p) + 1) * (K * M)) (objective p (den x)).
Proof. exact start_sizes_small. Qed.
Print Assumptions C58_start.
Example C58_start_case : well_sized ex_warm /\ feasible_basis ex_warm [2; 0]%nat /\ data_size 1 4 ex_warm /\
  forall r n, start_from r n 10 ex_warm [2; 0]%nat = Ok (FiniteOptimum [(0%nat, 1); (1%nat, zq 3)]).
Proof. exact (conj ex_warm_sized (conj ex_warm_feasible (conj ex_warm_data ex_warm_runs))). Qed.

(** ** The value of an optimum
    It is small for every optimum of a program, not only for the reported one. *)
Theorem C58_value : forall d K g x, general_ok g -> fresh g -> g_objective g = Minimize -> gdata_size d K g -> goptimal g x ->
  size_at_most ((4 * Z.of_nat (nr_vars g) + 2) * (K * K * general_bound g K)) (gcost g x).
Proof. exact value_sized. Qed.
Print Assumptions C58_value.
(** With presolving the reported value is as small as without. *)
Theorem C58_presolved : forall d K r n fuel g s, general_ok g -> fresh g -> g_objective g = Minimize -> gdata_size d K g -> safe_run fuel g = true ->
  presolve_and_solve r n fuel g = Ok (Solved_to s) -> size_at_most ((4 * Z.of_nat (nr_vars g) + 2) * (K * K * general_bound g K)) (s_objective s).
Proof. exact presolved_sized. Qed.
Print Assumptions C58_presolved.
Example C58_presolved_case : general_ok ex_gsize /\ fresh ex_gsize /\ g_objective ex_gsize = Minimize /\ gdata_size 2 12 ex_gsize /\ (forall fuel, safe_run fuel ex_gsize = true) /\
  forall r n, presolve_and_solve r n 30 ex_gsize = Ok (Solved_to (mk_solution (Q2Qc (-27 # 16)) [("x", Q2Qc (1 # 16)); ("y", Q2Qc (13 # 8))]%string)).
Proof. exact (conj (proj1 ex_gsize_ok) (conj (proj2 ex_gsize_ok) (conj eq_refl (conj ex_gsize_data (conj ex_gsize_safe ex_gsize_presolved))))). Qed.

Theorem C58_presolved_text : forall d K b f text r n fuel s, file_ok f -> file_solvable f -> spells text f -> fsense f = Minimize -> fdata_size d K f ->
  safe_text b fuel text = true -> presolve_text b r n fuel text = Got (Ok (Solved_to s)) ->
  size_at_most ((16 * Z.of_nat (length (columns_of f)) + 8) * (K * K * file_bound f K)) (s_objective s).
Proof. exact (fun d K b f text r n fuel s OK FS T => pre_with_sized d K (parse_free b) f text r n fuel s FS (text_reads b f text OK T)). Qed.
Print Assumptions C58_presolved_text.
Theorem C58_presolved_fixed_text : forall d K b f text r n fuel s, fixed_ok f -> file_solvable f -> fixed_spells text f -> fsense f = Minimize -> fdata_size d K f ->
  safe_fixed_text b fuel text = true -> presolve_fixed_text b r n fuel text = Got (Ok (Solved_to s)) ->
  size_at_most ((16 * Z.of_nat (length (columns_of f)) + 8) * (K * K * file_bound f K)) (s_objective s).
Proof. exact (fun d K b f text r n fuel s OK FS T => pre_with_sized d K (parse_fixed b) f text r n fuel s FS (fixed_read b f text OK T)). Qed.
Print Assumptions C58_presolved_fixed_text.
Example C58_presolved_text_case : file_ok small_file /\ file_solvable small_file /\ spells small small_file /\ fsense small_file = Minimize /\ fdata_size 2 20 small_file /\
  (forall b fuel, safe_text b fuel small = true) /\ forall b r n, presolve_text b r n 40 small = Got (Ok small_answer).
Proof. exact (conj small_ok (conj small_solvable (conj small_spelled (conj eq_refl (conj small_size (conj small_safe small_presolved)))))). Qed.
Example C58_presolved_fixed_text_case : fixed_ok fixed_file /\ file_solvable fixed_file /\ fixed_spells fixed_sample fixed_file /\ fsense fixed_file = Minimize /\ fdata_size 2 14 fixed_file /\
  (forall b fuel, safe_fixed_text b fuel fixed_sample = true) /\ forall b r n, presolve_fixed_text b r n 40 fixed_sample = Got (Ok fixed_answer).
Proof. exact (conj fixed_file_ok (conj fixed_solvable (conj fixed_sample_spelled (conj eq_refl (conj fixed_size (conj fixed_sample_safe fixed_presolved)))))). Qed.
