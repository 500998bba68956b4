(** * Programs that have been standardized before other calls *)
From Verif Require Import PreRules Examples SparseP ExGeneral GeneralQ PipelineP.
From Verif Require Export ExPresolve StandardT.
Local Open Scope string_scope.

(** x + y + z >= 5 and x + 2y + z <= 9 with x = 2 and y <= 4.  Standardizing replaces x by x - 2. *)
Definition w_late : general :=
  new_general Minimize 2 [zcol [(0%nat, 1%Z); (1%nat, 1%Z)]; zcol [(0%nat, 1%Z); (1%nat, 2%Z)]; zcol [(0%nat, 1%Z); (1%nat, 1%Z)]]
    [Greater; Less] [zq 5; zq 9] [v_ 1 (Some 2%Z) (Some 2%Z); v_ 1 (Some 0%Z) (Some 4%Z); v_ 2 (Some 0%Z) None] ["x"; "y"; "z"] 0.
(** the same with y free *)
Definition w_late_free : general :=
  new_general Minimize 2 [zcol [(0%nat, 1%Z); (1%nat, 1%Z)]; zcol [(0%nat, 1%Z); (1%nat, 2%Z)]; zcol [(0%nat, 1%Z); (1%nat, 1%Z)]]
    [Greater; Less] [zq 5; zq 9] [v_ 1 (Some 2%Z) (Some 2%Z); v_ 1 None None; v_ 2 (Some 0%Z) None] ["x"; "y"; "z"] 0.
Lemma w_late_ok : general_ok w_late /\ fresh w_late. Proof. apply new_ok. vm_compute. reflexivity. Qed.
Lemma w_late_free_ok : general_ok w_late_free /\ fresh w_late_free. Proof. apply new_ok. vm_compute. reflexivity. Qed.
Definition w_late_first : solution := mk_solution (zq 5) [("x", zq 2); ("y", zq 3); ("z", 0%Qc)].
Definition w_late_second : solution := mk_solution (zq 5) [("x", 0%Qc); ("y", zq 3); ("z", 0%Qc)].
Lemma w_late_run : exists g' c, standardize w_late = Ok (g', c) /\ solve_general UseRows FirstProfitable 100 w_late = Ok (Solved_to w_late_first) /\
  presolve_and_solve UseRows FirstProfitable 100 w_late = Ok (Solved_to w_late_first) /\
  presolve_and_solve UseRows FirstProfitable 100 g' = Ok (Solved_to w_late_second).
Proof.
  assert (H : match standardize w_late with Ok (g', _) => answer_is (presolve_and_solve UseRows FirstProfitable 100 g') (Solved_to w_late_second) | _ => false end = true) by (vm_compute; reflexivity).
  destruct (standardize w_late) as [[g' c]| |]; try discriminate. exists g', c. split; [reflexivity|].
  split; [apply answer_is_ok; vm_compute; reflexivity|]. split; [apply answer_is_ok; vm_compute; reflexivity|]. now apply answer_is_ok.
Qed.
Lemma w_late_wrong : ~ gfeasible w_late (solution_point w_late_second). Proof. apply gfeasibleb_false. vm_compute. reflexivity. Qed.
Lemma w_late_free_run : exists g' c, standardize w_late_free = Ok (g', c) /\ presolve 100 g' = PPanic.
Proof.
  assert (H : match standardize w_late_free with Ok (g', _) => match presolve 100 g' with PPanic => true | _ => false end | _ => false end = true) by (vm_compute; reflexivity).
  destruct (standardize w_late_free) as [[g' c]| |]; try discriminate. exists g', c. split; [reflexivity|]. destruct (presolve 100 g'); try discriminate. reflexivity.
Qed.
Lemma w_late_free_point : gfeasible w_late_free (point [zq 2; zq 3; 0%Qc]). Proof. apply gfeasibleb_ok. vm_compute. reflexivity. Qed.

Lemma solve_again r n fuel g g' c : general_ok g -> standardize g = Ok (g', c) -> solve_general r n fuel g' = solve_general r n fuel g.
Proof. intros P E. unfold solve_general. rewrite E, (standardize_twice g g' c P E). reflexivity. Qed.
Fixpoint standardize_times (k : nat) (g : general) : res general :=
  match k with 0%nat => Ok g | S k => let* g' := standardize_times k g in let* gc := standardize g' in Ok (fst gc) end.
Lemma solve_after r n fuel k g g' : general_ok g -> standardize_times k g = Ok g' -> general_ok g' /\ solve_general r n fuel g' = solve_general r n fuel g.
Proof.
  intros P. revert g'. induction k as [|k IH]; intros g' E; cbn [standardize_times] in E; [injection E as <-; now split|].
  destruct (standardize_times k g) as [g1| |]; cbn [bind] in E; try discriminate E. destruct (IH g1 eq_refl) as [P1 E1].
  destruct (StandardR.standardize_spec g1 P1) as (g2 & c2 & F & G & E2 & P2 & _). rewrite E2 in E. cbn [bind fst] in E. injection E as <-. split; [assumption|]. now rewrite (solve_again r n fuel g1 g2 c2 P1 E2).
Qed.
Lemma times_return k g : general_ok g -> exists g', standardize_times k g = Ok g'.
Proof.
  intros P. induction k as [|k [g1 E]]; [now exists g|]. cbn [standardize_times]. rewrite E. cbn [bind]. destruct (solve_after UseRows FirstProfitable 0 k g g1 P E) as [P1 _].
  destruct (StandardR.standardize_spec g1 P1) as (g2 & c2 & F & G & E2 & _). rewrite E2. now exists g2.
Qed.
Lemma ex_changed : general_ok ex_general /\ exists g' c, standardize ex_general = Ok (g', c) /\ g_cols g' <> g_cols ex_general.
Proof.
  split; [exact (proj1 (ex_general_solved UseRows FirstProfitable))|].
  assert (H : match standardize ex_general with Ok (g', _) => negb (Nat.eqb (length (g_cols g')) (length (g_cols ex_general))) | _ => false end = true) by (vm_compute; reflexivity).
  destruct (standardize ex_general) as [[g' c]| |]; try discriminate. exists g', c. split; [reflexivity|]. intros E. rewrite E, Nat.eqb_refl in H. discriminate.
Qed.
Lemma late_refuted : exists g g' c fuel s s', general_ok g /\ fresh g /\ standardize g = Ok (g', c) /\
  presolve_and_solve UseRows FirstProfitable fuel g = Ok (Solved_to s) /\ goptimal g (solution_point s) /\
  presolve_and_solve UseRows FirstProfitable fuel g' = Ok (Solved_to s') /\ ~ gfeasible g (solution_point s').
Proof.
  destruct w_late_run as (g' & c & E & A & B & C). exists w_late, g', c, 100%nat, w_late_first, w_late_second. destruct w_late_ok as [P F].
  repeat (split; [assumption|]). split; [|split; [assumption|exact w_late_wrong]]. exact (proj1 (proj2 (fresh_optimum UseRows FirstProfitable 100 w_late w_late_first P F eq_refl A))).
Qed.
