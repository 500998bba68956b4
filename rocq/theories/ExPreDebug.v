(** * Programs for the theorems on presolving in a debug build *)
From Verif Require Import PreSafe ExPresolve ExGeneral Examples ExSafe PresolveD PreAgreeWhole PreAgreeTypes.
Local Open Scope Qc_scope.
Local Open Scope string_scope.
(** min -b + c with -1 <= a, b <= 1, c >= 0, -a + b <= -2, 2a + 2c >= 5.
    The first constraint leaves a = 1, b = -1.  When the slack rule looks at a, it is fixed already. *)
Definition d_fixed : general :=
  new_general Minimize 2 [zcol [(0%nat, (-1)%Z); (1%nat, 2%Z)]; zcol [(0%nat, 1%Z)]; zcol [(1%nat, 2%Z)]]
    [Less; Greater] [zq (-2); zq 5]
    [v_ 0 (Some (-1)%Z) (Some 1%Z); v_ (-1) (Some (-1)%Z) (Some 1%Z); v_ 1 (Some 0%Z) None] ["a"; "b"; "c"] 0.
Definition d_fixed_solution : solution := mk_solution (zq 5 / zq 2) [("a", 1); ("b", zq (-1)); ("c", zq 3 / zq 2)].
Lemma d_fixed_ok : general_ok d_fixed /\ fresh d_fixed. Proof. apply new_ok. vm_compute. reflexivity. Qed.
Lemma d_fixed_run : presolve 100 d_fixed = Stop (VOptimum d_fixed_solution). Proof. apply stops_with_ok. vm_compute. reflexivity. Qed.
Lemma d_fixed_debug : presolve_debug 100 d_fixed = PPanic. Proof. apply pr_panics_ok. vm_compute. reflexivity. Qed.
(** all assertions but the one that fails there *)
Definition all_but_one (k : site) : bool := match k with SlackFixed => false | _ => true end.
Lemma s_main_debug : presolve_debug 100 s_main = Go s_main_after. Proof. apply goes_to_ok. vm_compute. reflexivity. Qed.
Lemma d_fixed_inequalities : inequalities d_fixed.
Proof. intros [|[|i]] L; [now left|now right|exfalso; cbn in L; lia]. Qed.
Lemma d_fixed_solved : presolve_and_solve UseRows FirstProfitable 100 d_fixed = Ok (Solved_to d_fixed_solution).
Proof. apply answer_is_ok. vm_compute. reflexivity. Qed.
