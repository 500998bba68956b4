(** * The number of steps is known in advance (C60)

    How many steps are enough can be said before the run, from the number of constraints and the number of variables
    alone: [search_steps], [presolve_steps] and [both_steps] of SpecSteps.v.  The result is then the result for every
    larger number of steps. *)
From Verif Require Import SpecGeneral SpecSizes SpecSteps SpecFile SpecFixed SpecSides SpecFSides Presolve SafeRun TextPipeline TextPresolve TextSolveP FixedP StepsP.
From Verif Require Import Examples ExGSize ExSides ExFSides ExPresolve.
Local Open Scope nat_scope.

(** ** Presolving *)
(** The loop of the presolver makes at most [presolve_steps] iterations, a polynomial, whatever the program is. *)
Theorem C60_presolve_loop : forall g fuel, presolve_steps (g_rows g) (nr_vars g) <= fuel -> presolve_changes fuel g <> PFuel.
Proof. exact changes_within. Qed.
Print Assumptions C60_presolve_loop.
Theorem C60_presolve_settled : forall g fuel, presolve_steps (g_rows g) (nr_vars g) <= fuel -> presolve_changes fuel g = presolve_changes (presolve_steps (g_rows g) (nr_vars g)) g.
Proof. exact changes_settle. Qed.
Print Assumptions C60_presolve_settled.
(** What is left is not larger. *)
Theorem C60_presolve_smaller : forall fuel g g', presolve fuel g = Go g' -> g_rows g' <= g_rows g /\ nr_vars g' <= nr_vars g.
Proof. exact presolve_smaller. Qed.
Print Assumptions C60_presolve_smaller.
(** Whether the run is one for which presolving is right, as C25 and C45 ask, can be computed. *)
Theorem C60_safe : forall g, safe g <-> safe_run (presolve_steps (g_rows g) (nr_vars g)) g = true.
Proof. exact safe_decided. Qed.
Print Assumptions C60_safe.

(** ** Solving *)
Theorem C60_rows : forall g, general_ok g -> fresh g ->
  exists a, forall fuel, search_steps (g_rows g) (nr_vars g) < fuel -> solve_general UseRows FirstProfitable fuel g = Ok a.
Proof. exact rows_settled. Qed.
Print Assumptions C60_rows.
(** with an LU decomposition, under the condition of C29 *)
Theorem C60_lu : forall g, general_ok g -> fresh g -> 2 <= inequality_rows g ->
  exists a, forall fuel, search_steps (g_rows g) (nr_vars g) < fuel -> solve_general UseLU FirstProfitable fuel g = Ok a.
Proof. exact lu_settled. Qed.
Print Assumptions C60_lu.

(** ** Both *)
Theorem C60_both : forall g, general_ok g -> fresh g -> safe g ->
  exists a, forall fuel, both_steps (g_rows g) (nr_vars g) < fuel -> presolve_and_solve UseRows FirstProfitable fuel g = Ok a.
Proof. exact both_settled. Qed.
Print Assumptions C60_both.
(** the programs of C59 *)
Theorem C60_packing : forall g, general_ok g -> fresh g -> packing g -> priced g -> exists s,
  (forall fuel, both_steps (g_rows g) (nr_vars g) < fuel -> presolve_and_solve UseRows FirstProfitable fuel g = Ok (Solved_to s)) /\
  map fst (s_values s) = map fst (g_orig g) /\ goptimal g (solution_point s) /\ (g_objective g = Minimize -> s_objective s = gcost g (solution_point s)).
Proof. exact packing_settled. Qed.
Print Assumptions C60_packing.
Theorem C60_covering : forall g, general_ok g -> fresh g -> covering g -> exists s,
  (forall fuel, both_steps (g_rows g) (nr_vars g) < fuel -> presolve_and_solve UseRows FirstProfitable fuel g = Ok (Solved_to s)) /\
  map fst (s_values s) = map fst (g_orig g) /\ goptimal g (solution_point s) /\ s_objective s = gcost g (solution_point s).
Proof. exact covering_settled. Qed.
Print Assumptions C60_covering.

(** ** Files: from the text to the answer *)
Theorem C60_text : forall b f text, file_ok f -> file_solvable f -> spells text f ->
  exists a, forall fuel, search_steps (length (constraint_rows f)) (length (columns_of f)) < fuel -> solve_text b UseRows FirstProfitable fuel text = Got (Ok a).
Proof. exact (fun b f text OK FS T => with_settled (parse_free b) f text FS (text_reads b f text OK T)). Qed.
Print Assumptions C60_text.
Theorem C60_fixed_text : forall b f text, fixed_ok f -> file_solvable f -> fixed_spells text f ->
  exists a, forall fuel, search_steps (length (constraint_rows f)) (length (columns_of f)) < fuel -> solve_fixed_text b UseRows FirstProfitable fuel text = Got (Ok a).
Proof. exact (fun b f text OK FS T => with_settled (parse_fixed b) f text FS (fixed_read b f text OK T)). Qed.
Print Assumptions C60_fixed_text.
Theorem C60_text_presolved : forall b f text, file_ok f -> file_solvable f -> spells text f -> (forall fuel, safe_text b fuel text = true) ->
  exists a, forall fuel, both_steps (length (constraint_rows f)) (length (columns_of f)) < fuel -> presolve_text b UseRows FirstProfitable fuel text = Got (Ok a).
Proof. exact (fun b f text OK FS T => pre_with_settled (parse_free b) f text FS (text_reads b f text OK T)). Qed.
Print Assumptions C60_text_presolved.
Theorem C60_sided_text : forall b f text, file_ok f -> file_solvable f -> spells text f -> file_sided f -> exists s,
  (forall fuel, both_steps (length (constraint_rows f)) (length (columns_of f)) < fuel -> presolve_text b UseRows FirstProfitable fuel text = Got (Ok (Solved_to s))) /\
  map fst (s_values s) = map fst (columns_of f) /\ foptimal f (answer_at s) /\ (fsense f = Minimize -> s_objective s = fcost f (answer_at s)).
Proof. exact (fun b f text OK FS T => sided_with_settled (parse_free b) f text FS (text_reads b f text OK T)). Qed.
Print Assumptions C60_sided_text.
Theorem C60_sided_fixed_text : forall b f text, fixed_ok f -> file_solvable f -> fixed_spells text f -> file_sided f -> exists s,
  (forall fuel, both_steps (length (constraint_rows f)) (length (columns_of f)) < fuel -> presolve_fixed_text b UseRows FirstProfitable fuel text = Got (Ok (Solved_to s))) /\
  map fst (s_values s) = map fst (columns_of f) /\ foptimal f (answer_at s) /\ (fsense f = Minimize -> s_objective s = fcost f (answer_at s)).
Proof. exact (fun b f text OK FS T => sided_with_settled (parse_fixed b) f text FS (fixed_read b f text OK T)). Qed.
Print Assumptions C60_sided_fixed_text.

(** ** Cases *)
(** Two rows, two variables: the number of steps, the program, and its answer. *)
Example C60_case : general_ok ex_gsize /\ fresh ex_gsize /\ 2 <= inequality_rows ex_gsize /\ g_rows ex_gsize = 2 /\ nr_vars ex_gsize = 2 /\
  forall r n, solve_general r n 30 ex_gsize = Ok (Solved_to gsize_answer).
Proof. exact (conj (proj1 ex_gsize_ok) (conj (proj2 ex_gsize_ok) (conj (proj1 (Nat.leb_le 2 (inequality_rows ex_gsize)) eq_refl) (conj eq_refl (conj eq_refl ex_gsize_solved))))). Qed.
Example C60_numbers : presolve_steps 2 2 = 325 /\ search_steps 1 1 = 512.
Proof. split; reflexivity. Qed.
(** the loop does make iterations *)
Example C60_presolve_case : presolve_changes 0 o_limits = PFuel /\ presolve 100 o_limits = Go o_limits_after /\ safe o_limits.
Proof. exact (conj eq_refl (conj o_limits_run (SidesP.one_sided_safe o_limits (proj1 o_limits_ok) o_limits_sided))). Qed.
Example C60_packing_case : general_ok o_pack /\ fresh o_pack /\ packing o_pack /\ priced o_pack.
Proof. exact (conj (proj1 o_pack_ok) (conj (proj2 o_pack_ok) (conj o_pack_packing o_pack_priced))). Qed.
Example C60_file_case : file_ok pack_text_file /\ file_solvable pack_text_file /\ spells pack_text pack_text_file /\ file_packing pack_text_file /\
  length (constraint_rows pack_text_file) = 2 /\ length (columns_of pack_text_file) = 3.
Proof. exact (conj pack_text_ok (conj pack_text_solvable (conj pack_text_spelled (conj pack_text_packing (conj eq_refl eq_refl))))). Qed.
