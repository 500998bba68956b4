(** * Properties of starting from a chosen basis (C42)

    [start_from r n fuel p basis] is `Carry::from_basis`, `Tableau::new_with_inverse_maintainer` and
    `phase_two::primal`, as in examples/column_range.rs, for the problem [p] and the columns [basis].  The
    specification is SpecWarm.v: [well_sized], [basis_of], [feasible_basis], [independent_columns]. *)
From Verif Require Import SolverQ WarmP ExWarm ExMet.
Local Open Scope Qc_scope.

(** The answer from a feasible basis is right.  The right-hand side may have negative entries, other than in C01. *)
Theorem C42_optimum : forall r n fuel p basis x, well_sized p -> feasible_basis p basis ->
  start_from r n fuel p basis = Ok (FiniteOptimum x) -> optimal p (den x) /\ wfs (p_cols p) x.
Proof. exact start_optimum. Qed.
Print Assumptions C42_optimum.
Theorem C42_unbounded : forall r n fuel p basis, well_sized p -> feasible_basis p basis ->
  start_from r n fuel p basis = Ok Unbounded -> unbounded p.
Proof. exact start_unbounded. Qed.
Print Assumptions C42_unbounded.
Example C42_unbounded_case : well_sized ex_warm_ray /\ feasible_basis ex_warm_ray [2; 0]%nat /\ forall r n, start_from r n 10 ex_warm_ray [2; 0]%nat = Ok Unbounded.
Proof. exact ex_warm_ray_case. Qed.
Theorem C42_never_infeasible : forall r n fuel p basis, start_from r n fuel p basis <> Ok Infeasible.
Proof. exact start_not_infeasible. Qed.
Print Assumptions C42_never_infeasible.
(** There is no panic from a feasible basis, with the explicit inverse from one row and with the LU decomposition from
    two rows. *)
Theorem C42_no_panic : forall r n fuel p basis, well_sized p -> feasible_basis p basis ->
  (match r with UseLU => 2 | UseRows => 1 end <= p_rows p)%nat -> start_from r n fuel p basis <> Panic.
Proof. exact start_no_panic. Qed.
Print Assumptions C42_no_panic.
(** With Bland's rule there is an answer after at most [columns ^ rows] steps. *)
Theorem C42_terminates : forall r p basis, well_sized p -> feasible_basis p basis ->
  (match r with UseLU => 2 | UseRows => 1 end <= p_rows p)%nat ->
  exists res, forall fuel, (p_cols p ^ p_rows p <= fuel)%nat -> start_from r FirstProfitable fuel p basis = Ok res.
Proof. exact start_terminates. Qed.
Print Assumptions C42_terminates.
(** Columns that are not a basis are never accepted, whether they would be feasible or not: an answer implies that all
    of them exist, that no column is chosen twice and that they are independent. *)
Theorem C42_only_bases : forall r n fuel p basis res, well_sized p -> length basis = p_rows p ->
  start_from r n fuel p basis = Ok res ->
  (forall j, In j basis -> (j < p_cols p)%nat) /\ independent_columns p basis /\ exists N, basis_of p basis N.
Proof. exact start_only_independent. Qed.
Print Assumptions C42_only_bases.

(** a problem with a negative right-hand side from a basis that is not that of the slacks; columns that are the same
    and a column that does not exist *)
Example C42_case : well_sized ex_warm /\ feasible_basis ex_warm [2; 0]%nat /\
  (forall r n, start_from r n 10 ex_warm [2; 0]%nat = Ok (FiniteOptimum [(0%nat, 1); (1%nat, zq 3)])).
Proof. exact (conj ex_warm_sized (conj ex_warm_feasible ex_warm_runs)). Qed.
Example C42_dependent_case : forall r n, start_from r n 10 ex_warm [1; 2]%nat = Panic /\ start_from r n 10 ex_warm [1; 4]%nat = Panic.
Proof. exact ex_warm_dependent. Qed.

(** ** What the hypotheses exclude *)
(** A basis with a negative value is accepted, and the "optimum" that is answered is not feasible. *)
Theorem C42_infeasible_basis_refuted : exists p basis N x, well_sized p /\ basis_of p basis N /\
  (forall r n, start_from r n 10 p basis = Ok (FiniteOptimum x)) /\ ~ feasible p (den x).
Proof. exact infeasible_start. Qed.
Print Assumptions C42_infeasible_basis_refuted.
(** With the LU decomposition a problem with one row panics; a problem without rows always does. *)
Theorem C42_one_row_refuted : exists p basis, well_sized p /\ feasible_basis p basis /\ p_rows p = 1%nat /\
  forall n, start_from UseLU n 10 p basis = Panic.
Proof. exact one_row_start. Qed.
Print Assumptions C42_one_row_refuted.
Theorem C42_no_row_refuted : exists p, well_sized p /\ feasible_basis p [] /\ forall r n, start_from r n 10 p [] = Panic.
Proof. exact no_row_start. Qed.
Print Assumptions C42_no_row_refuted.
