(** * Lemmas in the form in which PropGeneral.v states them, and the facts about the examples *)
From Verif Require Import SpecGeneral Pipeline SparseP ArtP StandardP StandardR MatrixDataP PipelineP SpecSizes SizesP SolverQ Examples ExGeneral.
Local Open Scope Qc_scope.

Lemma md_correspond : forall g c, general_ok g -> standard_shape g c -> exists d, derive_matrix_data g c = Ok d /\
  (forall z, feasible (md_provider d) z -> gfeasible g z) /\
  (forall x, gfeasible g x -> exists z, feasible (md_provider d) z /\ forall j, (j < nr_vars g)%nat -> z j = x j) /\
  (forall z z', feasible (md_provider d) z -> feasible (md_provider d) z' -> (forall j, (j < nr_vars g)%nat -> z j = z' j) ->
     forall j, (j < p_cols (md_provider d))%nat -> z j = z' j).
Proof.
  intros g c P SH. destruct (derive_spec g c P SH) as (d & E & D). exists d. split; [assumption|]. split; [|split].
  - apply (feasible_general g c d P SH D).
  - intros x Fx. exists (with_slacks g c d x). split; [now apply (general_feasible g c d P SH D)|].
    intros j L. now apply (with_slacks_normal g c d D).
  - intros z z'. apply (same_slacks g c d P SH D).
Qed.
Lemma derive_derived g c d : general_ok g -> standard_shape g c -> derive_matrix_data g c = Ok d -> derived g c d.
Proof. intros P SH E. destruct (derive_spec g c P SH) as (d' & E' & D). rewrite E in E'. now injection E' as <-. Qed.
Lemma md_cost_same : forall g c d z, general_ok g -> standard_shape g c -> derive_matrix_data g c = Ok d ->
  gcost g z = g_fixed g + objective (md_provider d) z.
Proof. intros g c d z P SH E. symmetry. exact (md_objective g c d (derive_derived _ _ _ P SH E) z). Qed.
Lemma md_reconstruct : forall g c d z, general_ok g -> standard_shape g c -> derive_matrix_data g c = Ok d ->
  wfs (p_cols (md_provider d)) z ->
  wfs (nr_vars g) (reconstruct d z) /\ forall j, (j < nr_vars g)%nat -> den (reconstruct d z) j = den z j.
Proof. intros g c d z P SH E W. exact (reconstruct_spec g c d P (derive_derived _ _ _ P SH E) z W). Qed.
Lemma md_contract : forall g c d, general_ok g -> standard_shape g c -> derive_matrix_data g c = Ok d -> provider_ok (md_provider d).
Proof. intros g c d P SH E. exact (md_provider_ok g c d P SH (derive_derived _ _ _ P SH E)). Qed.
Lemma pivots_sorted_distinct : forall d,
  increasing_from 0 (map fst (md_pivots d)) /\ NoDup (map fst (md_pivots d)) /\ NoDup (map snd (md_pivots d)).
Proof.
  intros d. destruct (any_pivots_sorted d) as [A B]. split; [assumption|]. split; eapply increasing_NoDup; eassumption.
Qed.
Lemma pivots_unit_columns : forall d r j, In (r, j) (md_pivots d) ->
  (r < p_rows (md_provider d))%nat /\ (j < p_cols (md_provider d))%nat /\
  (forall i, den (p_col (md_provider d) j) i = if Nat.eqb i r then 1 else 0) /\ p_cost (md_provider d) j = 0.
Proof.
  intros d r j H. destruct (any_pivots_unit d r j H) as (A & B & C & E). split; [assumption|]. split; [assumption|]. split; [|assumption].
  intros i. rewrite C. unfold sbasis. apply den_single.
Qed.
Lemma standardize_theorem : forall g, general_ok g -> exists g' c F G, standardize g = Ok (g', c) /\
  general_ok g' /\ standard_shape g' c /\
  (forall x, gfeasible g' x -> gfeasible g (F x)) /\ (forall x, gfeasible g x -> gfeasible g' (G x)) /\
  (forall x j, (j < nr_vars g)%nat -> F (G x) j = x j) /\
  ((forall j, (j < nr_vars g)%nat -> ~ (v_lower (var g j) = None /\ v_upper (var g j) = None)) ->
     forall x j, (j < nr_vars g')%nat -> G (F x) j = x j) /\
  (g_objective g = Minimize -> forall x, gcost g' x = gcost g (F x)) /\
  (forall x val, completed g' x val <-> completed g (F x) val) /\ map fst (g_orig g') = map fst (g_orig g).
Proof.
  intros g P. destruct (standardize_spec g P) as (g' & c & F & G & E & P' & SH & S). exists g', c, F, G.
  split; [assumption|]. split; [assumption|]. split; [assumption|]. destruct S as [S1 S2 S3 S4 S5 S6 S7 _ _ _ _].
  split; [assumption|]. split; [assumption|]. split; [assumption|]. split; [exact S5|]. split; [|split; assumption].
  intros M x. rewrite S3, M. reflexivity.
Qed.
Lemma translation : forall fuel g g' c z s, general_ok g -> g_objective g = Minimize -> standardize g = Ok (g', c) ->
  wfs (nr_vars g') z -> full_solution fuel g' z = Ok s ->
  exists x val, completed g x val /\ s_values s = combine (map fst (g_orig g)) (map val (range 0 (length (g_orig g)))) /\
    s_objective s = gcost g x /\
    (gfeasible g' (den z) -> gfeasible g x) /\ (goptimal g' (den z) -> goptimal g x).
Proof.
  intros fuel g g1 c1 z s P M E1 W EF. destruct (standardize_spec g P) as (g' & c & F & G & E & P' & SH & S).
  rewrite E in E1. injection E1 as <- <-. destruct (full_solution_spec _ _ _ _ P' W EF) as (val & C & V & SO).
  exists (F (den z)), val. split; [now apply (sd_values _ _ _ _ S)|]. split.
  - rewrite V, (sd_names _ _ _ _ S). f_equal. f_equal. f_equal. rewrite <- (map_length fst (g_orig g')), (sd_names _ _ _ _ S). apply map_length.
  - split; [rewrite SO, (sd_cost _ _ _ _ S), M; reflexivity|]. split; [apply (sd_back _ _ _ _ S)|].
    apply (standardized_optimal _ _ _ _ _ S (ss_objective _ _ SH)).
Qed.
Lemma translation_fresh : forall fuel g g' c z s, general_ok g -> fresh g -> g_objective g = Minimize -> standardize g = Ok (g', c) ->
  wfs (nr_vars g') z -> full_solution fuel g' z = Ok s ->
  map fst (s_values s) = map fst (g_orig g) /\ s_objective s = gcost g (solution_point s) /\
  (gfeasible g' (den z) -> gfeasible g (solution_point s)) /\ (goptimal g' (den z) -> goptimal g (solution_point s)).
Proof.
  intros fuel g g' c z s P FR M E W EF. destruct (translation fuel g g' c z s P M E W EF) as (x & val & C & V & SO & A & B).
  destruct (fresh_values g s x val FR C V) as [N X]. split; [assumption|]. split; [rewrite SO; now apply gcost_ext|].
  split; intros H; [apply (gfeasible_ext g x)|apply (goptimal_ext g x)]; auto.
Qed.
Lemma minimum_removed : forall r n fuel g s, general_ok g -> g_objective g = Minimize ->
  solve_general r n fuel g = Ok (Solved_to s) ->
  exists x val, goptimal g x /\ completed g x val /\
    s_values s = combine (map fst (g_orig g)) (map val (range 0 (length (g_orig g)))) /\ s_objective s = gcost g x.
Proof.
  intros r n fuel g s P M E. destruct (solve_general_optimum r n fuel g s P E) as (x & val & A & B & C & H). rewrite M in H. now exists x, val.
Qed.
Lemma fresh_rows_no_panic : forall n fuel g, general_ok g -> fresh g -> solve_general UseRows n fuel g <> Panic.
Proof. intros n fuel g P F. apply rows_no_panic; [assumption|now apply fresh_acyclic]. Qed.
Lemma fresh_rows_terminates : forall g, general_ok g -> fresh g ->
  exists fuel a, forall fuel', (fuel <= fuel')%nat -> solve_general UseRows FirstProfitable fuel' g = Ok a.
Proof. intros g P F. apply rows_terminates; [assumption|now apply fresh_acyclic]. Qed.
Lemma fresh_lu_no_panic : forall n fuel g, general_ok g -> fresh g -> (2 <= inequality_rows g)%nat -> solve_general UseLU n fuel g <> Panic.
Proof. intros n fuel g P F L. apply (lu_two_no_panic n fuel g P); [now apply fresh_acyclic|assumption]. Qed.
Lemma fresh_lu_terminates : forall g, general_ok g -> fresh g -> (2 <= inequality_rows g)%nat ->
  exists fuel a, forall fuel', (fuel <= fuel')%nat -> solve_general UseLU FirstProfitable fuel' g = Ok a.
Proof. intros g P F L. apply (lu_two_terminates g P); [now apply fresh_acyclic|assumption]. Qed.
Lemma fresh_complete : forall g x, general_ok g -> fresh g -> g_objective g = Minimize -> goptimal g x ->
  exists fuel s, solve_general UseRows FirstProfitable fuel g = Ok (Solved_to s) /\ s_objective s = gcost g x.
Proof.
  intros g x P F M [Fx O]. destruct (fresh_rows_terminates g P F) as (fuel & a & H). specialize (H fuel (le_n fuel)). exists fuel.
  destruct a as [s| |].
  - exists s. split; [assumption|]. destruct (fresh_optimum _ _ _ _ _ P F M H) as (_ & [Fs Os] & SO). rewrite SO.
    specialize (O _ Fs). specialize (Os _ Fx). rewrite M in O, Os. cbn [better] in O, Os. now apply Qcle_antisym.
  - exfalso. exact (solve_general_infeasible _ _ _ _ P H x Fx).
  - exfalso. destruct (solve_general_unbounded _ _ _ _ P H) as [_ U]. rewrite M in U. destruct (U (gcost g x)) as (y & Fy & Ly).
    specialize (O y Fy). rewrite M in O. cbn [better] in O. qlra.
Qed.

(** ** Examples *)
Lemma ex_shape_ok : general_ok ex_shape /\ standard_shape ex_shape (mk_counts 1 1 1 1) /\ gfeasible ex_shape (nthq [zq 1; zq 2]).
Proof.
  split; [apply new_ok; vm_compute; reflexivity|]. split.
  - constructor; try reflexivity.
    + intros [|[|j]] L; [reflexivity|reflexivity|change (S (S j) < 2)%nat in L; lia].
    + intros [|[|[|[|i]]]] L; try (apply qleb_true; vm_compute; reflexivity). change (S (S (S (S i))) < 4)%nat in L. lia.
    + intros [|i] L; [reflexivity|cbn in L; lia].
    + intros [|i] L; [eexists; reflexivity|cbn in L; lia].
    + intros [|i] L; [reflexivity|cbn in L; lia].
    + intros [|i] L; [reflexivity|cbn in L; lia].
  - split.
    + intros [|[|[|[|i]]]] L; [| | | |change (S (S (S (S i))) < 4)%nat in L; lia]; unfold row_type; cbn [ex_shape new_general g_types nth rel_holds].
      * apply qeqb_true; vm_compute; reflexivity.
      * split; apply qleb_true; vm_compute; reflexivity.
      * apply qleb_true; vm_compute; reflexivity.
      * apply qleb_true; vm_compute; reflexivity.
    + intros [|[|j]] L; [| |change (S (S j) < 2)%nat in L; lia]; split; intros l E; vm_compute in E; try discriminate; injection E as <-;
        apply qleb_true; vm_compute; reflexivity.
Qed.

Definition translated : res (list (string * Qc)) :=
  let* gc := standardize ex_general in let* s := full_solution 1 (fst gc) [(0%nat, zq 2); (2%nat, 1)] in Ok (s_values s).
Lemma ex_translation : exists g' c s, standardize ex_general = Ok (g', c) /\ wfs (nr_vars g') [(0%nat, zq 2); (2%nat, 1)] /\
  full_solution 1 g' [(0%nat, zq 2); (2%nat, 1)] = Ok s /\ s_values s = [("x", zq 3); ("y", zq 3); ("w", 1)]%string.
Proof.
  assert (T : match translated with Ok v => same_values v [("x", zq 3); ("y", zq 3); ("w", 1)]%string | _ => false end = true)
    by (vm_compute; reflexivity).
  assert (N : match standardize ex_general with Ok (g', _) => Nat.eqb (nr_vars g') 4 | _ => false end = true) by (vm_compute; reflexivity).
  unfold translated in T. destruct (standardize ex_general) as [[g' c]| |]; try discriminate. cbn [bind fst] in T.
  destruct (full_solution 1 g' _) as [s| |] eqn:E; cbn [bind] in T; try discriminate. exists g', c, s. split; [reflexivity|].
  apply Nat.eqb_eq in N. split; [apply fwfb_ok; rewrite N; vm_compute; reflexivity|]. split; [assumption|now apply same_values_ok].
Qed.
Lemma ex_general_solved : forall r n, general_ok ex_general /\ fresh ex_general /\ g_objective ex_general = Minimize /\
  (2 <= inequality_rows ex_general)%nat /\
  solve_general r n 30 ex_general =
    Ok (Solved_to (mk_solution (Q2Qc (1 # 6)) [("x", 1); ("y", Q2Qc (5 # 3)); ("w", Q2Qc (3 # 2))]%string)).
Proof.
  intros r n. split; [apply new_ok; vm_compute; reflexivity|]. split; [apply new_ok; vm_compute; reflexivity|]. split; [reflexivity|]. split.
  - apply Nat.leb_le. vm_compute. reflexivity.
  - apply answer_is_ok. destruct r, n; vm_compute; reflexivity.
Qed.
Lemma ex_infeasible_solved : forall r n, general_ok ex_general_infeasible /\ solve_general r n 30 ex_general_infeasible = Ok NoSolution.
Proof. intros r n. split; [apply new_ok; vm_compute; reflexivity|]. apply answer_is_ok. destruct r, n; vm_compute; reflexivity. Qed.
Lemma ex_unbounded_solved : forall r n, general_ok ex_general_unbounded /\ solve_general r n 30 ex_general_unbounded = Ok NoBound.
Proof. intros r n. split; [apply new_ok; vm_compute; reflexivity|]. apply answer_is_ok. destruct r, n; vm_compute; reflexivity. Qed.
Lemma ex_one_constraint_panics : exists g fuel, general_ok g /\ fresh g /\ g_objective g = Minimize /\
  solve_general UseLU DescentAlongObjective fuel g = Panic.
Proof.
  exists ex_one_constraint, 30%nat. split; [apply new_ok; vm_compute; reflexivity|]. split; [apply new_ok; vm_compute; reflexivity|].
  split; [reflexivity|]. apply is_panic_ok. vm_compute. reflexivity.
Qed.
Lemma ex_empty_domain_solved : exists g fuel s, fresh g /\ (forall x, ~ gfeasible g x) /\
  solve_general UseLU DescentAlongObjective fuel g = Ok (Solved_to s).
Proof.
  exists ex_empty_domain, 30%nat, (mk_solution 0 [("x", 0); ("y", 0)]%string). split; [|split].
  - split; [reflexivity|]. split; [|split]; intros [|[|j]] L; try (change (S (S j) < 2)%nat in L; lia); try (eexists; reflexivity); try reflexivity;
      split; reflexivity.
  - intros x [_ B]. specialize (B 0%nat ltac:(vm_compute; lia)). destruct B as [B1 B2].
    specialize (B1 (zq 0) eq_refl). specialize (B2 (zq (-1)) eq_refl).
    assert (H : zq 0 <= zq (-1)) by (apply Qcle_trans with (x 0%nat); assumption). apply qleb_true in H. vm_compute in H. discriminate.
  - apply answer_is_ok. vm_compute. reflexivity.
Qed.
Lemma ex_maximize_wrong : exists g fuel s, general_ok g /\ fresh g /\ g_objective g = Maximize /\
  solve_general UseLU DescentAlongObjective fuel g = Ok (Solved_to s) /\
  goptimal g (solution_point s) /\ s_objective s <> gcost g (solution_point s).
Proof.
  set (s := mk_solution 1 [("x", zq 4); ("y", 0)]%string). exists ex_maximize, 30%nat, s.
  assert (P : general_ok ex_maximize) by (apply new_ok; vm_compute; reflexivity).
  assert (F : fresh ex_maximize) by (apply new_ok; vm_compute; reflexivity).
  assert (E : solve_general UseLU DescentAlongObjective 30 ex_maximize = Ok (Solved_to s)) by (apply answer_is_ok; vm_compute; reflexivity).
  split; [assumption|]. split; [assumption|]. split; [reflexivity|]. split; [assumption|].
  split; [exact (proj1 (proj2 (fresh_maximum _ _ _ _ _ P F eq_refl E)))|].
  apply qeqb_false. vm_compute. reflexivity.
Qed.
