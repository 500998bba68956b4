(** * Programs for the theorems on solving general forms in a debug build *)
From Verif Require Import PreSafe ExPresolve ExGeneral Examples ExSafe ExPreDebug GeneralQ PipelineDQ.
Local Open Scope Qc_scope.
Local Open Scope string_scope.

(** no variables, and the constraint 0 <= 1 *)
Definition p_empty : general := new_general Minimize 1 [] [Less] [zq 1] [] [] 0.
Lemma p_empty_ok : general_ok p_empty /\ fresh p_empty. Proof. apply new_ok. vm_compute. reflexivity. Qed.
Lemma p_empty_enough : enough UseRows p_empty. Proof. apply Nat.leb_le. vm_compute. reflexivity. Qed.
Lemma p_empty_release : solve_general UseRows FirstProfitable 20 p_empty = Ok (Solved_to (mk_solution 0 [])).
Proof. apply answer_is_ok. vm_compute. reflexivity. Qed.
Definition panics {A} (a : res A) : bool := match a with Panic => true | _ => false end.
Lemma panics_ok A (a : res A) : panics a = true -> a = Panic. Proof. destruct a; cbn; congruence. Qed.
Lemma p_empty_debug : solve_general_debug UseRows FirstProfitable 20 p_empty = Panic. Proof. apply panics_ok. vm_compute. reflexivity. Qed.
(** x >= 0, and the constraint 0 = 0 *)
Definition p_silent : general := new_general Minimize 1 [[]] [Equal] [0] [v_ 1 (Some 0%Z) None] ["x"] 0.
Lemma p_silent_ok : general_ok p_silent /\ fresh p_silent. Proof. apply new_ok. vm_compute. reflexivity. Qed.
Lemma p_silent_some : (1 <= nr_vars p_silent)%nat. Proof. cbn. lia. Qed.
Lemma p_silent_release : solve_general UseRows FirstProfitable 20 p_silent = Ok (Solved_to (mk_solution 0 [("x", 0)])).
Proof. apply answer_is_ok. vm_compute. reflexivity. Qed.
Lemma p_silent_debug : solve_general_debug UseRows FirstProfitable 20 p_silent = Panic. Proof. apply panics_ok. vm_compute. reflexivity. Qed.

Lemma ex_general_enough r : enough r ex_general. Proof. destruct r; apply Nat.leb_le; vm_compute; reflexivity. Qed.
Lemma ex_general_debug r n : solve_general_debug r n 30 ex_general =
  Ok (Solved_to (mk_solution (Q2Qc (1 # 6)) [("x", 1); ("y", Q2Qc (5 # 3)); ("w", Q2Qc (3 # 2))])).
Proof. apply answer_is_ok. destruct r, n; vm_compute; reflexivity. Qed.
Lemma s_main_enough r g' : presolve 100 s_main = Go g' -> enough r g'.
Proof. rewrite s_main_run. intros E. injection E as <-. destruct r; apply Nat.leb_le; vm_compute; reflexivity. Qed.
