(** * Certificates of concrete programs *)
From Verif Require Import SparseP StandardP PipelineP SolverQ GeneralQ.
From Verif Require Export GDualP ExGeneral Examples Pipeline.
Local Open Scope Qc_scope.

Lemma general_certified r n fuel g s : general_ok g -> fresh g -> solve_general r n fuel g = Ok (Solved_to s) ->
  gfeasible g (solution_point s) /\ exists y, gproves_bound g y (gcost g (solution_point s)).
Proof.
  intros OK FR E. assert (H : goptimal g (solution_point s)).
  { destruct (g_objective g) eqn:Eo; [now apply (fresh_optimum r n fuel g s OK FR Eo E)|now apply (fresh_maximum r n fuel g s OK FR Eo E)]. }
  split; [apply H|now apply goptimal_certified].
Qed.
Lemma ex_certificates : forall r n,
  (provider_ok ex_optimum /\ run r n 20 ex_optimum = Ok (FiniteOptimum [(0%nat, zq 3); (1%nat, zq 1)]) /\
   proves_bound ex_optimum (fun _ => Q2Qc (-1 # 2)) (objective ex_optimum (den [(0%nat, zq 3); (1%nat, zq 1)]))) /\
  (provider_ok ex_infeasible /\ run r n 20 ex_infeasible = Ok Infeasible /\ proves_infeasible ex_infeasible (fun i => if Nat.eqb i 0 then 1 else zq (-1))) /\
  (provider_ok ex_unbounded /\ run r n 20 ex_unbounded = Ok Unbounded /\ ray ex_unbounded (fun j => if Nat.ltb j 2 then 1 else 0)).
Proof.
  intros r n. split; [|split]; (split; [apply plain_ok; vm_compute; reflexivity|]; split; [apply result_is_ok; destruct r, n; vm_compute; reflexivity|]).
  - split; [|apply Qc_is_canon; vm_compute; reflexivity]. intros j Lj. do 4 (destruct j as [|j]; [apply qleb_true; vm_compute; reflexivity|]). cbn in Lj. lia.
  - split; [|apply qltb_true; vm_compute; reflexivity]. intros j Lj. do 4 (destruct j as [|j]; [apply qleb_true; vm_compute; reflexivity|]). cbn in Lj. lia.
  - split; [|split; [|apply qltb_true; vm_compute; reflexivity]].
    + intros i Li. do 2 (destruct i as [|i]; [apply Qc_is_canon; vm_compute; reflexivity|]). cbn in Li. lia.
    + intros j Lj. do 3 (destruct j as [|j]; [apply qleb_true; vm_compute; reflexivity|]). cbn in Lj. lia.
Qed.
Definition is_value (o : option Qc) (v : Qc) : bool := match o with Some w => qeqb w v | None => false end.
Lemma is_value_ok o v : is_value o v = true -> o = Some v.
Proof. destruct o as [w|]; cbn; [|discriminate]. intros H. f_equal. now apply qeqb_true. Qed.
Lemma ex_general_certificates : forall r n,
  (general_ok ex_general /\ fresh ex_general /\ solve_general r n 30 ex_general =
     Ok (Solved_to (mk_solution (Q2Qc (1 # 6)) [("x", 1); ("y", Q2Qc (5 # 3)); ("w", Q2Qc (3 # 2))]%string)) /\
   gproves_bound ex_general (nthq [0; Q2Qc (-2 # 3); Q2Qc (1 # 2); 0]) (Q2Qc (1 # 6))) /\
  (general_ok ex_general_infeasible /\ solve_general r n 30 ex_general_infeasible = Ok NoSolution /\ gproves_infeasible ex_general_infeasible (nthq [zq (-1); 0])) /\
  (general_ok ex_general_unbounded /\ solve_general r n 30 ex_general_unbounded = Ok NoBound /\ gray ex_general_unbounded (nthq [1; 1])).
Proof.
  intros r n. split; [|split].
  - destruct (ex_general_solved r n) as (A & B & _ & _ & C). split; [exact A|]. split; [exact B|]. split; [exact C|].
    exists (nthq [0; zq (-4); 1; 0]), (nthq [Q2Qc (1 # 6); 0; 0]). split; [|split].
    + intros i Li. do 4 (destruct i as [|i]; [apply is_value_ok; vm_compute; reflexivity|]). cbn in Li. lia.
    + intros j Lj. do 3 (destruct j as [|j]; [apply is_value_ok; vm_compute; reflexivity|]). cbn in Lj. lia.
    + apply Qc_is_canon. vm_compute. reflexivity.
  - destruct (ex_infeasible_solved r n) as (A & C). split; [exact A|]. split; [exact C|]. exists (zq 2). split; [apply qltb_true; vm_compute; reflexivity|].
    exists (nthq [zq (-1); 0]), (nthq [1; zq 2]). split; [|split].
    + intros i Li. do 2 (destruct i as [|i]; [apply is_value_ok; vm_compute; reflexivity|]). cbn in Li. lia.
    + intros j Lj. do 2 (destruct j as [|j]; [apply is_value_ok; vm_compute; reflexivity|]). cbn in Lj. lia.
    + apply Qc_is_canon. vm_compute. reflexivity.
  - destruct (ex_unbounded_solved r n) as (A & C). split; [exact A|]. split; [exact C|]. split; [|split; [|apply qltb_true; vm_compute; reflexivity]].
    + intros i Li. do 2 (destruct i as [|i]; [split; intros H; first [apply qleb_true; vm_compute; reflexivity|exfalso; apply H; reflexivity]|]). cbn in Li. lia.
    + intros j Lj. do 2 (destruct j as [|j]; [split; intros H; first [apply qleb_true; vm_compute; reflexivity|exfalso; apply H; reflexivity]|]). cbn in Lj. lia.
Qed.
