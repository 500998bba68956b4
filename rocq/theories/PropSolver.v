(** * Properties of the solver (C01 - C15)

    [run r n fuel p] is `solve_relaxation` on the problem [p] with basis inverse representation [r]
    and pivot rule [n], where every loop makes at most [fuel] turns; the result is [Fuel] when that
    was not enough, and [Panic] when the program panics.  [feasible], [optimal], [unbounded],
    [redundant] and [provider_ok] are defined in Spec.v without reference to the solver; [reach],
    [consistent], [history] in Runs.v; the examples in Examples.v. *)
From Verif Require Import SolverQ LuConv.
Local Open Scope Qc_scope.

(** ** More fuel does not change an answer *)
Theorem fuel_irrelevant : forall r n p f g, (f <= g)%nat -> run r n f p <> Fuel -> run r n g p = run r n f p.
Proof. exact run_mono. Qed.
Print Assumptions fuel_irrelevant.

(** ** C01 *)
Theorem C01_finite_optimum : forall r n fuel p x, provider_ok p -> run r n fuel p = Ok (FiniteOptimum x) ->
  feasible p (den x) /\ (forall y, feasible p y -> objective p (den x) <= objective p y) /\ wfs (p_cols p) x.
Proof. intros r n fuel p x Pok E. destruct (run_optimum r n fuel p x Pok E) as [[A B] C]. exact (conj A (conj B C)). Qed.
Print Assumptions C01_finite_optimum.
Example C01_case : forall r n, provider_ok ex_optimum /\ provider_ok ex_equality /\ provider_ok ex_redundant /\
  run r n 20 ex_optimum = Ok (FiniteOptimum [(0%nat, zq 3); (1%nat, zq 1)]) /\
  run r n 20 ex_equality = Ok (FiniteOptimum [(0%nat, zq 3); (1%nat, zq 1)]) /\
  run r n 20 ex_redundant = Ok (FiniteOptimum [(0%nat, zq 3); (1%nat, zq 1)]).
Proof.
  intros r n. repeat (match goal with |- _ /\ _ => split end); try (apply plain_ok; vm_compute; reflexivity);
  apply result_is_ok; destruct r, n; vm_compute; reflexivity.
Qed.

(** ** C02 *)
Theorem C02_infeasible : forall r n fuel p, provider_ok p -> run r n fuel p = Ok Infeasible -> forall x, ~ feasible p x.
Proof. exact run_infeasible. Qed.
Print Assumptions C02_infeasible.
Example C02_case : forall r n, provider_ok ex_infeasible /\ run r n 20 ex_infeasible = Ok Infeasible.
Proof. intros r n. split; [apply plain_ok; vm_compute; reflexivity|]. apply result_is_ok. destruct r, n; vm_compute; reflexivity. Qed.

(** ** C03 *)
Theorem C03_unbounded : forall r n fuel p, provider_ok p -> run r n fuel p = Ok Unbounded ->
  (exists x, feasible p x) /\ forall bound, exists y, feasible p y /\ objective p y < bound.
Proof. exact run_unbounded. Qed.
Print Assumptions C03_unbounded.
Example C03_case : forall r n, provider_ok ex_unbounded /\ run r n 20 ex_unbounded = Ok Unbounded.
Proof. intros r n. split; [apply plain_ok; vm_compute; reflexivity|]. apply result_is_ok. destruct r, n; vm_compute; reflexivity. Qed.

(** ** C04 *)
(** With the explicit inverse the solver never panics (a given full basis must have a row). *)
Theorem C04_rows_never_panics : forall n fuel p, provider_ok p ->
  (forall l, p_init p = FullInit l -> (1 <= p_rows p)%nat) -> run UseRows n fuel p <> Panic.
Proof. exact run_no_panic_rows. Qed.
Print Assumptions C04_rows_never_panics.
(** With the LU decomposition it does not panic when at least two rows are independent. *)
Theorem C04_lu_never_panics_partial : forall n fuel p, provider_ok p -> (2 <= p_rows p)%nat ->
  (forall rm, redundant p rm -> (length rm + 2 <= p_rows p)%nat) -> run UseLU n fuel p <> Panic.
Proof. exact run_no_panic_lu. Qed.
Print Assumptions C04_lu_never_panics_partial.
Example C04_case : provider_ok ex_cycle /\ (2 <= p_rows ex_cycle)%nat /\
  forall rm, redundant ex_cycle rm -> (length rm + 2 <= p_rows ex_cycle)%nat.
Proof. split; [exact ex_cycle_ok|]. apply (rank2_ok ex_cycle 4 5). vm_compute. reflexivity. Qed.
(** With one row the LU decomposition panics in `change_basis`: minimize -x0 with x0 + x1 = 1. *)
Theorem C04_lu_one_row_refuted : exists p fuel, provider_ok p /\ p_rows p = 1%nat /\
  run UseLU DescentAlongObjective fuel p = Panic.
Proof. exists ex_one_row, 5%nat. split; [apply plain_ok; vm_compute; reflexivity|]. split; [reflexivity|exact one_row_panics]. Qed.
Print Assumptions C04_lu_one_row_refuted.

(** ** C05 *)
Theorem C05_every_state_consistent : forall r n p ph p' k t s, provider_ok p ->
  reach (ops r) (rule n (ops r)) p ph p' k t s -> exists N, consistent (ops r) k (p_rhs p') t N.
Proof. intros r n p ph p' k t s. apply (reach_consistent (ops r) (laws r) _ (rule_laws n (ops r) (laws r))). Qed.
Print Assumptions C05_every_state_consistent.
Example C05_case : forall r n, exists k t s, reach (ops r) (rule n (ops r)) ex_equality PhaseOne ex_equality k t (Some s).
Proof. intros r n. apply started_reach with 2%nat. destruct r, n; vm_compute; reflexivity. Qed.

(** ** C06 *)
Theorem C06_step_does_not_increase : forall r n p ph p' k t s t' s', provider_ok p ->
  reach (ops r) (rule n (ops r)) p ph p' k t (Some s) ->
  simplex_step (ops r) (rule n (ops r)) k t s = Ok (StepPivot _ _ t' s') ->
  objective_value t' <= objective_value t /\
  ((exists i, (i < k_rows k)%nat /\ nth i (c_basis (t_im t')) 0%nat <> nth i (c_basis (t_im t)) 0%nat /\
     0 < nthq (c_b (t_im t')) i) -> objective_value t' < objective_value t).
Proof. exact step_cost. Qed.
Print Assumptions C06_step_does_not_increase.
Theorem C06_objective_is_cost_of_solution : forall r n p ph p' k t s, provider_ok p ->
  reach (ops r) (rule n (ops r)) p ph p' k t s ->
  let x := den (current_bfs t) in
  (forall i, (i < k_rows k)%nat -> sum (k_cols k) (fun j => den (k_col k j) i * x j) = nthq (p_rhs p') i) /\
  (forall j, 0 <= x j) /\ objective_value t = sum (k_cols k) (fun j => k_cost k j * x j).
Proof. intros r n p ph p' k t s. apply (reach_objective (ops r) (laws r) _ (rule_laws n (ops r) (laws r))). Qed.
Print Assumptions C06_objective_is_cost_of_solution.
Example C06_case : forall r n, exists k t s, reach (ops r) (rule n (ops r)) ex_equality PhaseOne ex_equality k t (Some s).
Proof. exact C05_case. Qed.

(** ** C07 *)
(** The removed rows are combinations of the others, and removing them keeps the feasible points. *)
Theorem C07_removed_rows_redundant : forall r n fuel p rows t a, provider_ok p -> (forall l, p_init p <> FullInit l) ->
  compute_bfs (ops r) (rule n (ops r)) fuel p = Ok (PhaseOneFeasible _ (RankDeficient rows) t, a) ->
  rows <> [] /\ redundant p rows /\ (forall x, feasible (remove_rows p rows) x <-> feasible p x).
Proof. exact phase_one_rows. Qed.
Print Assumptions C07_removed_rows_redundant.
Theorem C07_redundant_rows_are_implied : forall p rows x, redundant p rows ->
  (forall i, (i < p_rows p)%nat -> ~ In i rows -> sum (p_cols p) (fun j => den (p_col p j) i * x j) = nthq (p_rhs p) i) ->
  forall i, (i < p_rows p)%nat -> sum (p_cols p) (fun j => den (p_col p j) i * x j) = nthq (p_rhs p) i.
Proof. exact redundant_rows_implied. Qed.
Print Assumptions C07_redundant_rows_are_implied.
(** The state phase two starts from after removal has the exact inverse of the reduced basis. *)
Theorem C07_inverse_after_removal : forall r n fuel p rows t a t', provider_ok p -> (forall l, p_init p <> FullInit l) ->
  compute_bfs (ops r) (rule n (ops r)) fuel p = Ok (PhaseOneFeasible _ (RankDeficient rows) t, a) ->
  tab_from_artificial_remove (t_im t) a (t_cols t) (remove_rows p rows) rows = Ok t' ->
  exists N, consistent (ops r) (non_artificial (remove_rows p rows)) (p_rhs (remove_rows p rows)) t' N.
Proof. exact removal_consistent. Qed.
Print Assumptions C07_inverse_after_removal.
Example C07_case : forall r n, exists t a,
  compute_bfs (ops r) (rule n (ops r)) 20 ex_redundant = Ok (PhaseOneFeasible _ (RankDeficient [2%nat]) t, a).
Proof. exact ex_redundant_rows. Qed.

(** ** C08 *)
Theorem C08_rows_terminates : forall p, provider_ok p -> (forall l, p_init p = FullInit l -> (1 <= p_rows p)%nat) ->
  exists fuel res, forall fuel', (fuel <= fuel')%nat -> run UseRows FirstProfitable fuel' p = Ok res.
Proof. intros p Pok H. apply (run_first_profitable UseRows p Pok). now apply sizes_rows. Qed.
Print Assumptions C08_rows_terminates.
Theorem C08_lu_terminates : forall p, provider_ok p -> (2 <= p_rows p)%nat ->
  (forall rm, redundant p rm -> (length rm + 2 <= p_rows p)%nat) ->
  exists fuel res, forall fuel', (fuel <= fuel')%nat -> run UseLU FirstProfitable fuel' p = Ok res.
Proof. intros p Pok H2 H. apply (run_first_profitable UseLU p Pok). now apply sizes_lu. Qed.
Print Assumptions C08_lu_terminates.
(** with a bound on the number of turns that depends only on the size of the problem *)
Theorem C08_rows_within : forall p fuel, provider_ok p -> (forall l, p_init p = FullInit l -> (1 <= p_rows p)%nat) ->
  ((p_rows p + p_cols p) ^ p_rows p < fuel)%nat -> exists res, run UseRows FirstProfitable fuel p = Ok res.
Proof. intros p fuel Pok H. apply (run_first_profitable_within UseRows p fuel Pok). now apply sizes_rows. Qed.
Print Assumptions C08_rows_within.
Theorem C08_lu_within : forall p fuel, provider_ok p -> (2 <= p_rows p)%nat ->
  (forall rm, redundant p rm -> (length rm + 2 <= p_rows p)%nat) ->
  ((p_rows p + p_cols p) ^ p_rows p < fuel)%nat -> exists res, run UseLU FirstProfitable fuel p = Ok res.
Proof. intros p fuel Pok H2 H. apply (run_first_profitable_within UseLU p fuel Pok). now apply sizes_lu. Qed.
Print Assumptions C08_lu_within.
(** from every state reached, the loop of the phase ends within [columns ^ rows] turns *)
Theorem C08_loop_terminates : forall r p ph p' k t s, provider_ok p ->
  reach (ops r) (rule FirstProfitable (ops r)) p ph p' k t (Some s) -> (r = UseLU -> (2 <= k_rows k)%nat) ->
  simplex_loop (ops r) (rule FirstProfitable (ops r)) (k_cols k ^ k_rows k) k t s <> Fuel.
Proof. exact loop_first_profitable. Qed.
Print Assumptions C08_loop_terminates.
Example C08_case : forall r, run r FirstProfitable 20 ex_cycle = Ok (FiniteOptimum [(0%nat, half); (2%nat, half); (4%nat, half); (6%nat, Q2Qc (17 # 2))]) /\
  objective ex_cycle (den [(0%nat, half); (2%nat, half); (4%nat, half); (6%nat, Q2Qc (17 # 2))]) = Q2Qc (-3 # 2).
Proof.
  intros r. split; [apply result_is_ok; destruct r; vm_compute; reflexivity|].
  apply Qc_is_canon. vm_compute. reflexivity.
Qed.

(** ** C09 *)
(** The three other rules can cycle: on a bounded problem with a finite optimum the solver never
    returns, whatever the number of turns. *)
Theorem C09_default_rule_terminates_refuted : exists p, provider_ok p /\ (exists x, optimal p x) /\
  forall r fuel, run r DescentAlongObjective fuel p = Fuel.
Proof. exact default_rule_cycles. Qed.
Print Assumptions C09_default_rule_terminates_refuted.
Theorem C09_memory_rule_terminates_refuted : exists p, provider_ok p /\ (exists x, optimal p x) /\
  forall r fuel, run r FirstProfitableWithMemory fuel p = Fuel.
Proof. exact memory_rule_cycles. Qed.
Print Assumptions C09_memory_rule_terminates_refuted.
Theorem C09_largest_coefficient_terminates_refuted : exists p, provider_ok p /\
  forall r fuel, run r DescentAlongVariable fuel p = Fuel.
Proof. exists ex_cycle_variable. split; [exact ex_cycle_variable_ok|exact variable_cycles]. Qed.
Print Assumptions C09_largest_coefficient_terminates_refuted.
(** What holds: on a problem that is nowhere degenerate every rule ends. *)
Theorem C09_rows_nondegenerate_partial : forall n p fuel, provider_ok p -> (forall l, p_init p = FullInit l -> (1 <= p_rows p)%nat) ->
  nondegenerate p -> ((p_rows p + p_cols p) ^ p_rows p < fuel)%nat -> exists res, run UseRows n fuel p = Ok res.
Proof. intros n p fuel Pok H. apply (run_nondegenerate UseRows n p fuel Pok). now apply sizes_rows. Qed.
Print Assumptions C09_rows_nondegenerate_partial.
Theorem C09_lu_nondegenerate_partial : forall n p fuel, provider_ok p -> (2 <= p_rows p)%nat ->
  (forall rm, redundant p rm -> (length rm + 2 <= p_rows p)%nat) ->
  nondegenerate p -> ((p_rows p + p_cols p) ^ p_rows p < fuel)%nat -> exists res, run UseLU n fuel p = Ok res.
Proof. intros n p fuel Pok H2 H. apply (run_nondegenerate UseLU n p fuel Pok). now apply sizes_lu. Qed.
Print Assumptions C09_lu_nondegenerate_partial.
(** And a run that does not end has made a step that left the objective value as it was, at a state in which a basic
    variable is zero. *)
Theorem C09_rows_endless_stalls_partial : forall n p fuel, provider_ok p -> (forall l, p_init p = FullInit l -> (1 <= p_rows p)%nat) ->
  ((p_rows p + p_cols p) ^ p_rows p < fuel)%nat -> run UseRows n fuel p = Fuel ->
  exists ph p' k t s t' s', reach BIR (rule n BIR) p ph p' k t (Some s) /\
    simplex_step BIR (rule n BIR) k t s = Ok (StepPivot _ _ t' s') /\ objective_value t' = objective_value t /\
    exists i, (i < k_rows k)%nat /\ nthq (c_b (t_im t)) i = 0.
Proof. intros n p fuel Pok H. apply (run_stalls UseRows n p fuel Pok). now apply sizes_rows. Qed.
Print Assumptions C09_rows_endless_stalls_partial.
Theorem C09_lu_endless_stalls_partial : forall n p fuel, provider_ok p -> (2 <= p_rows p)%nat ->
  (forall rm, redundant p rm -> (length rm + 2 <= p_rows p)%nat) ->
  ((p_rows p + p_cols p) ^ p_rows p < fuel)%nat -> run UseLU n fuel p = Fuel ->
  exists ph p' k t s t' s', reach LU (rule n LU) p ph p' k t (Some s) /\
    simplex_step LU (rule n LU) k t s = Ok (StepPivot _ _ t' s') /\ objective_value t' = objective_value t /\
    exists i, (i < k_rows k)%nat /\ nthq (c_b (t_im t)) i = 0.
Proof. intros n p fuel Pok H2 H. apply (run_stalls UseLU n p fuel Pok). now apply sizes_lu. Qed.
Print Assumptions C09_lu_endless_stalls_partial.
Example C09_case : provider_ok ex_optimum /\ nondegenerate ex_optimum /\
  (forall rm, redundant ex_optimum rm -> (length rm + 2 <= p_rows ex_optimum)%nat) /\
  forall r n, run r n 40 ex_optimum = Ok (FiniteOptimum [(0%nat, zq 3); (1%nat, 1)]).
Proof.
  split; [apply plain_ok; vm_compute; reflexivity|]. split; [exact ex_optimum_nondegenerate|].
  split; [apply (rank2_ok ex_optimum 2 3); vm_compute; reflexivity|].
  intros r n. apply result_is_ok. destruct r, n; vm_compute; reflexivity.
Qed.

(** ** C10 *)
Theorem C10_selection : forall r n p ph p' k t s N, provider_ok p ->
  reach (ops r) (rule n (ops r)) p ph p' k t (Some s) -> consistent (ops r) k (p_rhs p') t N ->
  exists sel s', r_select (rule n (ops r)) s k t = Ok (sel, s') /\
    match sel with
    | None => forall j, eligible k (c_basis (t_im t)) j -> 0 <= reduced_cost k (c_basis (t_im t)) N j
    | Some (q, c) => eligible k (c_basis (t_im t)) q /\ c = reduced_cost k (c_basis (t_im t)) N q /\ c < 0
    end.
Proof. intros r n p ph p' k t s N Pok. exact (select_spec r p p' ph k t N Pok n s). Qed.
Print Assumptions C10_selection.
Theorem C10_first_profitable_smallest_index : forall r p ph p' k t s N q c s', provider_ok p ->
  reach (ops r) (rule FirstProfitable (ops r)) p ph p' k t (Some s) -> consistent (ops r) k (p_rhs p') t N ->
  r_select (rule FirstProfitable (ops r)) s k t = Ok (Some (q, c), s') ->
  forall j, eligible k (c_basis (t_im t)) j -> (j < q)%nat -> 0 <= reduced_cost k (c_basis (t_im t)) N j.
Proof. intros r p ph p' k t s N q c s' Pok. exact (first_profitable_least r p p' ph k t N Pok s q c s'). Qed.
Print Assumptions C10_first_profitable_smallest_index.
Theorem C10_variable_least_cost : forall r p ph p' k t s N q c s', provider_ok p ->
  reach (ops r) (rule DescentAlongVariable (ops r)) p ph p' k t (Some s) -> consistent (ops r) k (p_rhs p') t N ->
  r_select (rule DescentAlongVariable (ops r)) s k t = Ok (Some (q, c), s') ->
  forall j, eligible k (c_basis (t_im t)) j ->
    reduced_cost k (c_basis (t_im t)) N q <= reduced_cost k (c_basis (t_im t)) N j.
Proof. intros r p ph p' k t s N q c s' Pok. exact (variable_least r p p' ph k t N Pok s q c s'). Qed.
Print Assumptions C10_variable_least_cost.
Theorem C10_objective_steepest : forall r p ph p' k t s N q c s', provider_ok p ->
  reach (ops r) (rule DescentAlongObjective (ops r)) p ph p' k t (Some s) -> consistent (ops r) k (p_rhs p') t N ->
  r_select (rule DescentAlongObjective (ops r)) s k t = Ok (Some (q, c), s') ->
  forall j, eligible k (c_basis (t_im t)) j -> reduced_cost k (c_basis (t_im t)) N j < 0 ->
    reduced_cost k (c_basis (t_im t)) N j * reduced_cost k (c_basis (t_im t)) N j / edge_weight k N j <=
    reduced_cost k (c_basis (t_im t)) N q * reduced_cost k (c_basis (t_im t)) N q / edge_weight k N q.
Proof. intros r p ph p' k t s N q c s' Pok. exact (objective_steepest r p p' ph k t N Pok s q c s'). Qed.
Print Assumptions C10_objective_steepest.
Example C10_case : forall r n, exists k t s N,
  reach (ops r) (rule n (ops r)) ex_optimum PhaseOne ex_optimum k t (Some s) /\ consistent (ops r) k (p_rhs ex_optimum) t N.
Proof. exact ex_optimum_state. Qed.

(** ** C11 *)
Theorem C11_weights_exact : forall r p ph p' k t (s : r_state (rule DescentAlongObjective (ops r))) N, provider_ok p ->
  reach (ops r) (rule DescentAlongObjective (ops r)) p ph p' k t (Some s) -> consistent (ops r) k (p_rhs p') t N ->
  length s = k_cols k /\
  forall j, eligible k (c_basis (t_im t)) j -> nth_error s j = Some (Some (edge_weight k N j)).
Proof. intros r p ph p' k t s N Pok. exact (weights_exact r p p' ph k t N Pok s). Qed.
Print Assumptions C11_weights_exact.
Example C11_case : forall r, exists k t s,
  reach (ops r) (rule DescentAlongObjective (ops r)) ex_cycle PhaseTwo ex_cycle k t (Some s).
Proof. exact ex_cycle_state. Qed.

(** ** C12, C13 *)
Theorem C12_rows_exact : forall m b cols, history BIR m b cols ->
  exists N, is_inverse m N (fun i j => den (nth j cols []) i) /\ exact_queries BIR m b N.
Proof. exact (history_exact BIR BIR_laws). Qed.
Print Assumptions C12_rows_exact.
Theorem C12_rows_total :
  (forall m, exists b, bi_identity BIR m = Ok b) /\
  (forall m cols N, (1 <= m)%nat -> length cols = m -> Forall (wfs m) cols ->
     is_inverse m N (fun i j => den (nth j cols []) i) -> exists b, bi_invert BIR cols = Ok b) /\
  (forall m b cols a cc r, history BIR m b cols -> wfs m a -> bi_left BIR b a = Ok cc ->
     (r < m)%nat -> den (cci_col BIR cc) r <> 0 -> exists b' w, bi_change BIR b r cc = Ok (b', w)).
Proof. exact rows_total. Qed.
Print Assumptions C12_rows_total.
Theorem C12_rows_only_invertible : forall m cols b, length cols = m -> Forall (wfs m) cols -> bi_invert BIR cols = Ok b ->
  exists N, is_inverse m N (fun i j => den (nth j cols []) i).
Proof. exact bir_invert_returns. Qed.
Print Assumptions C12_rows_only_invertible.
Theorem C13_lu_exact : forall m b cols, history LU m b cols ->
  exists N, is_inverse m N (fun i j => den (nth j cols []) i) /\ exact_queries LU m b N.
Proof. exact (history_exact LU LU_laws). Qed.
Print Assumptions C13_lu_exact.
(** the inverse of every non-singular matrix is computed, and updated when there are two or more rows *)
Theorem C13_lu_total :
  (forall m, (1 <= m)%nat -> exists b, bi_identity LU m = Ok b) /\
  (forall m cols N, (1 <= m)%nat -> length cols = m -> Forall (wfs m) cols ->
     is_inverse m N (fun i j => den (nth j cols []) i) -> exists b, bi_invert LU cols = Ok b) /\
  (forall m b cols a cc r, history LU m b cols -> (2 <= m)%nat -> wfs m a -> bi_left LU b a = Ok cc ->
     (r < m)%nat -> den (cci_col LU cc) r <> 0 -> exists b' w, bi_change LU b r cc = Ok (b', w)).
Proof. exact lu_total. Qed.
Print Assumptions C13_lu_total.
(** only non-singular matrices are inverted: for all others the program panics or does not return *)
Theorem C13_lu_only_invertible : forall m cols b, length cols = m -> Forall (wfs m) cols -> bi_invert LU cols = Ok b ->
  exists N, is_inverse m N (fun i j => den (nth j cols []) i).
Proof. exact lu_invert_returns. Qed.
Print Assumptions C13_lu_only_invertible.
(** an update with one row panics *)
Theorem C13_lu_one_row_refuted : exists b a cc, history LU 1 b (map sbasis (seq 0 1)) /\ wfs 1 a /\
  bi_left LU b a = Ok cc /\ den (cci_col LU cc) 0%nat <> 0 /\ bi_change LU b 0%nat cc = Panic.
Proof. exact lu_one_row. Qed.
Print Assumptions C13_lu_one_row_refuted.
Example C12_C13_case : forall r, exists b, history (ops r) 3 b
  [zcol [(0%nat, 2%Z); (1%nat, 1%Z); (2%nat, 4%Z)]; zcol [(1%nat, 3%Z); (2%nat, 1%Z)]; sbasis 2].
Proof. exact history_case. Qed.

(** ** C14 *)
Theorem C14_same_result_partial : forall n f p, provider_ok p -> (2 <= p_rows p)%nat ->
  (forall rm, redundant p rm -> (length rm + 2 <= p_rows p)%nat) -> run UseLU n f p = run UseRows n f p.
Proof. exact run_equal. Qed.
Print Assumptions C14_same_result_partial.
Theorem C14_same_when_both_return : forall n f1 f2 p a b, provider_ok p ->
  run UseLU n f1 p = Ok a -> run UseRows n f2 p = Ok b -> a = b.
Proof. exact run_same. Qed.
Print Assumptions C14_same_when_both_return.
Theorem C14_same_result_refuted : exists p a, provider_ok p /\
  run UseRows DescentAlongObjective 5 p = Ok a /\ run UseLU DescentAlongObjective 5 p = Panic.
Proof.
  exists ex_one_row, (FiniteOptimum [(0%nat, 1%Qc)]). split; [apply plain_ok; vm_compute; reflexivity|].
  split; [apply result_is_ok; vm_compute; reflexivity|exact one_row_panics].
Qed.
Print Assumptions C14_same_result_refuted.
Example C14_case : provider_ok ex_cycle /\ (2 <= p_rows ex_cycle)%nat /\
  forall rm, redundant ex_cycle rm -> (length rm + 2 <= p_rows ex_cycle)%nat.
Proof. exact C04_case. Qed.

(** ** C15 *)
Theorem C15_swap : forall m a b, (a < m)%nat -> (b < m)%nat ->
  two_way m (sw_forward a b) (sw_forward a b) /\
  forall l, wfs m l -> exists l', sw_sorted a b l = Ok l' /\ moved m (sw_forward a b) l l'.
Proof. intros m a b La Lb. split; [now apply swap_two_way|intros l; now apply swap_moved]. Qed.
Print Assumptions C15_swap.
Theorem C15_rotate_to_back : forall m t, (t < m)%nat ->
  two_way m (rb_forward t m) (rb_backward t m) /\
  (forall l, wfs m l -> exists l', rb_sorted t m l = Ok l' /\ moved m (rb_forward t m) l l') /\
  (forall l, wfs m l -> exists l', rb_back_sorted t m l = Ok l' /\ moved m (rb_backward t m) l l').
Proof.
  intros m t Lt. split; [now apply rotate_two_way|]. split; intros l; [now apply rotate_moved|now apply rotate_back_moved].
Qed.
Print Assumptions C15_rotate_to_back.
Theorem C15_full : forall m f, full_history m f ->
  exists F G, two_way m F G /\ (forall i, (i < m)%nat -> full_forward f i = Ok (F i) /\ full_backward f i = Ok (G i)) /\
   forall l, wfs m l ->
    (exists l', map_sorted (full_forward f) l = Ok l' /\ moved m F l l') /\
    (exists l', map_sorted (full_backward f) l = Ok l' /\ moved m G l l').
Proof. exact full_all. Qed.
Print Assumptions C15_full.
Theorem C15_full_swap : forall m f i j, full_history m f -> (i < m)%nat -> (j < m)%nat ->
  (exists f', full_swap f i j = Ok f' /\ forall x, (x < m)%nat -> full_forward f' x = full_forward f (sw_forward i j x)) /\
  (exists f', full_swap_inverse f i j = Ok f' /\ forall x, (x < m)%nat -> full_backward f' x = full_backward f (sw_forward i j x)).
Proof. exact full_swaps. Qed.
Print Assumptions C15_full_swap.
(** `rotate_right_from` breaks the relation between the two directions *)
Theorem C15_full_rotate_refuted : exists f f', full_history 3 f /\ full_rotate_right_from f 1 = Ok f' /\
  exists i j, full_forward f' i = Ok j /\ full_backward f' j <> Ok i.
Proof. exact full_rotate_wrong. Qed.
Print Assumptions C15_full_rotate_refuted.
Example C15_case : exists f, full_history 3 f /\ full_forward f 0 = Ok 2%nat /\ full_backward f 0 = Ok 1%nat.
Proof.
  exists (full_new [2; 0; 1]%nat). split; [|split; reflexivity]. apply fh_new; [reflexivity| |].
  - repeat constructor; cbn; intuition discriminate.
  - cbn. intuition lia.
Qed.
