(** * Proofs behind PropDebug.v *)
From Verif Require Export DebugRun DebugInst SolverP SolverQ Examples.

Definition debug_laws (r : representation) : DLaws (laws r) (debug_ops r) :=
  match r with UseLU => LU_dlaws | UseRows => BIR_dlaws end.
Definition debug_rule_laws (n : rule_name) (O : BIOps) (L : BILaws O) (D : DOps O) (DL : DLaws L D) :
  RuleDLaws L D DL (rule n O) (rule_laws n O L) (debug_rule n O D) :=
  match n with
  | FirstProfitable => first_profitable_dlaws O L D DL
  | FirstProfitableWithMemory => first_profitable_memory_dlaws O L D DL
  | DescentAlongVariable => steepest_variable_dlaws O L D DL
  | DescentAlongObjective => steepest_objective_dlaws O L D DL
  end.

Lemma run_debug_lu n fuel p : provider_ok p -> (2 <= p_rows p)%nat ->
  (forall rm, redundant p rm -> (length rm + 2 <= p_rows p)%nat) -> run_debug UseLU n fuel p = run UseLU n fuel p.
Proof.
  intros Pok H2 H.
  apply (solve_same LU LU_laws LU_debug LU_dlaws _ _ _ (debug_rule_laws n LU LU_laws LU_debug LU_dlaws) fuel p Pok).
  split; [exact H2|]. split; [intros; exact H2|]. intros rm _ Red. specialize (H rm Red). cbn. split; [lia|intros; lia].
Qed.
Lemma run_debug_rows n fuel p : provider_ok p -> (1 <= p_rows p)%nat ->
  (forall l, p_init p = FullInit l -> (2 <= p_rows p)%nat) ->
  (forall rm, redundant p rm -> (length rm < p_rows p)%nat) -> run_debug UseRows n fuel p = run UseRows n fuel p.
Proof.
  intros Pok H1 H2 H.
  apply (solve_same BIR BIR_laws BIR_debug BIR_dlaws _ _ _ (debug_rule_laws n BIR BIR_laws BIR_debug BIR_dlaws) fuel p Pok).
  split; [exact H1|]. split; [exact H2|]. intros rm _ Red. specialize (H rm Red). cbn. split; [lia|]. intros C. discriminate C.
Qed.
Lemma run_debug_no_panic_lu n fuel p : provider_ok p -> (2 <= p_rows p)%nat ->
  (forall rm, redundant p rm -> (length rm + 2 <= p_rows p)%nat) -> run_debug UseLU n fuel p <> Panic.
Proof. intros Pok H2 H. rewrite run_debug_lu by assumption. now apply run_no_panic_lu. Qed.
Lemma run_debug_no_panic_rows n fuel p : provider_ok p -> (1 <= p_rows p)%nat ->
  (forall l, p_init p = FullInit l -> (2 <= p_rows p)%nat) ->
  (forall rm, redundant p rm -> (length rm < p_rows p)%nat) -> run_debug UseRows n fuel p <> Panic.
Proof. intros Pok H1 H2 H. rewrite run_debug_rows by assumption. apply run_no_panic_rows; [assumption|]. intros; lia. Qed.

(** ** Sizes for which an assertion does fail *)
(** one row and a starting basis: min -x0, x0 + x1 = 1 from x1 *)
Definition ex_one_basis : provider := plain 1 [sbasis 0; sbasis 0] [zq (-1); 0] [1] (FullInit [(0%nat, 1%nat)]).
Lemma ex_one_basis_ok : provider_ok ex_one_basis.
Proof.
  split; cbn.
  - reflexivity.
  - intros [|i] Li; [|lia]. cbn. qlra.
  - intros j Lj. destruct j as [|[|j]]; [| |lia]; apply sbasis_wfs; lia.
  - unfold init_ok. cbn. split; [split; [lia|exact I]|]. split; [reflexivity|]. split; [intros r j [[= <- <-]|[]]; lia|].
    exists delta. split.
    + split; intros i j Li Lj; assert (i = 0%nat) by lia; assert (j = 0%nat) by lia; subst; unfold mmul, delta; cbn; ring.
    + intros [|r] Lr; [|lia]. unfold delta. cbn. qlra.
  - reflexivity.
Qed.
(** the only row is a sum of none: 0 x0 = 0 *)
Definition ex_all_redundant : provider := plain 1 [[]] [zq 1] [0] NoInit.
(** no rows at all *)
Definition ex_no_rows : provider := plain 0 [[]] [zq 1] [] NoInit.

Lemma one_basis_fails n : run_debug UseRows n 10 ex_one_basis = Panic /\
  run UseRows n 10 ex_one_basis = Ok (FiniteOptimum [(0%nat, 1)]).
Proof. split; [destruct n; vm_compute; reflexivity|]. apply result_is_ok. destruct n; vm_compute; reflexivity. Qed.
Lemma all_redundant_fails n : run_debug UseRows n 10 ex_all_redundant = Panic /\
  run UseRows n 10 ex_all_redundant = Ok (FiniteOptimum []).
Proof. split; [destruct n; vm_compute; reflexivity|]. apply result_is_ok. destruct n; vm_compute; reflexivity. Qed.
Lemma no_rows_fails r n : run_debug r n 10 ex_no_rows = Panic.
Proof. destruct r, n; vm_compute; reflexivity. Qed.
