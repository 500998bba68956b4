(** * C48: the internal assertions of a debug build hold in every run *)
From Verif Require Import DebugP DebugSubS.

(** ** C48 *)
(** With the LU decomposition a build that evaluates all internal assertions gives the answer of a build that evaluates
    none, for every problem, every pivot rule and every number of turns, as long as at least two rows are left. *)
Theorem C48_factorized : forall n fuel p, provider_ok p -> (2 <= p_rows p)%nat ->
  (forall rm, redundant p rm -> (length rm + 2 <= p_rows p)%nat) -> run_debug UseLU n fuel p = run UseLU n fuel p.
Proof. exact run_debug_lu. Qed.
Print Assumptions C48_factorized.
(** With the explicit inverse one row suffices, or two rows for a problem that offers a complete starting basis. *)
Theorem C48_explicit : forall n fuel p, provider_ok p -> (1 <= p_rows p)%nat ->
  (forall l, p_init p = FullInit l -> (2 <= p_rows p)%nat) ->
  (forall rm, redundant p rm -> (length rm < p_rows p)%nat) -> run_debug UseRows n fuel p = run UseRows n fuel p.
Proof. exact run_debug_rows. Qed.
Print Assumptions C48_explicit.
(** No assertion fails in any of these runs. *)
Theorem C48_factorized_no_failure : forall n fuel p, provider_ok p -> (2 <= p_rows p)%nat ->
  (forall rm, redundant p rm -> (length rm + 2 <= p_rows p)%nat) -> run_debug UseLU n fuel p <> Panic.
Proof. exact run_debug_no_panic_lu. Qed.
Print Assumptions C48_factorized_no_failure.
Theorem C48_explicit_no_failure : forall n fuel p, provider_ok p -> (1 <= p_rows p)%nat ->
  (forall l, p_init p = FullInit l -> (2 <= p_rows p)%nat) ->
  (forall rm, redundant p rm -> (length rm < p_rows p)%nat) -> run_debug UseRows n fuel p <> Panic.
Proof. exact run_debug_no_panic_rows. Qed.
Print Assumptions C48_explicit_no_failure.

(** a problem with an optimum, one with a redundant row, one without solutions and one without optimum *)
Example C48_case : forall r n,
  provider_ok ex_optimum /\ run_debug r n 20 ex_optimum = Ok (FiniteOptimum [(0%nat, zq 3); (1%nat, 1)]) /\
  provider_ok ex_redundant /\ run_debug r n 20 ex_redundant = Ok (FiniteOptimum [(0%nat, zq 3); (1%nat, 1)]) /\
  provider_ok ex_infeasible /\ run_debug r n 20 ex_infeasible = Ok Infeasible /\
  provider_ok ex_unbounded /\ run_debug r n 20 ex_unbounded = Ok Unbounded.
Proof.
  intros r n. repeat (match goal with |- _ /\ _ => split end); try (apply plain_ok; vm_compute; reflexivity);
    apply result_is_ok; destruct r, n; vm_compute; reflexivity.
Qed.

(** Whatever the problem is: if a debug build gives an answer, that is the answer of a release build. *)
Theorem C48_answers : forall r n fuel p a, run_debug r n fuel p = Ok a -> run r n fuel p = Ok a.
Proof. exact run_sub. Qed.
Print Assumptions C48_answers.
(** The sizes that are excluded do fail.  A problem with one row that offers a starting basis is solved without
    assertions and stops with them (lower_upper/decomposition/mod.rs:32 asserts more than one row). *)
Theorem C48_one_row_basis_refuted : exists p, provider_ok p /\ p_rows p = 1%nat /\
  forall n, run_debug UseRows n 10 p = Panic /\ run UseRows n 10 p = Ok (FiniteOptimum [(0%nat, 1)]).
Proof. exists ex_one_basis. split; [exact ex_one_basis_ok|]. split; [reflexivity|]. exact one_basis_fails. Qed.
Print Assumptions C48_one_row_basis_refuted.
(** So does a problem all of whose rows are redundant (basis_inverse_rows.rs:218). *)
Theorem C48_all_redundant_refuted : exists p, provider_ok p /\ p_rows p = 1%nat /\
  forall n, run_debug UseRows n 10 p = Panic /\ run UseRows n 10 p = Ok (FiniteOptimum []).
Proof.
  exists ex_all_redundant. split; [apply plain_ok; vm_compute; reflexivity|]. split; [reflexivity|]. exact all_redundant_fails.
Qed.
Print Assumptions C48_all_redundant_refuted.
(** A problem without rows always stops (vector/dense.rs:40). *)
Theorem C48_no_rows_refuted : exists p, provider_ok p /\ p_rows p = 0%nat /\ forall r n, run_debug r n 10 p = Panic.
Proof. exists ex_no_rows. split; [apply plain_ok; vm_compute; reflexivity|]. split; [reflexivity|]. exact no_rows_fails. Qed.
Print Assumptions C48_no_rows_refuted.
