(** * Programs of which presolving is safe *)
From Verif Require Import SpecSizes PreSafe ExPresolve ExGeneral Examples.
Local Open Scope Qc_scope.
Local Open Scope string_scope.
(** min a - b - 2c - 3d with a = 2, 0 <= b <= 6, 0 <= c, d <= 4, s >= 0,
    a + b <= 5, a + 2b + c + 3s = 10, c + d >= -1, c + 2d <= 7.
    Presolving substitutes a, turns the first row into b <= 3, removes s and drops the third row. *)
Definition s_main : general :=
  new_general Minimize 4
    [zcol [(0%nat, 1%Z); (1%nat, 1%Z)]; zcol [(0%nat, 1%Z); (1%nat, 2%Z)]; zcol [(1%nat, 1%Z); (2%nat, 1%Z); (3%nat, 1%Z)];
     zcol [(2%nat, 1%Z); (3%nat, 2%Z)]; zcol [(1%nat, 3%Z)]]
    [Less; Equal; Greater; Less] [zq 5; zq 10; zq (-1); zq 7]
    [v_ 1 (Some 2%Z) (Some 2%Z); v_ (-1) (Some 0%Z) (Some 6%Z); v_ (-2) (Some 0%Z) (Some 4%Z); v_ (-3) (Some 0%Z) (Some 4%Z); v_ 0 (Some 0%Z) None]
    ["a"; "b"; "c"; "d"; "s"] 0.
Definition s_main_after : general :=
  mk_general Minimize (zq 2) 2 [zcol [(0%nat, 2%Z)]; zcol [(0%nat, 1%Z); (1%nat, 1%Z)]; zcol [(1%nat, 2%Z)]] [Less; Less] [zq 8; zq 7]
    [v_ (-1) (Some 0%Z) (Some 3%Z); v_ (-2) (Some 0%Z) (Some 4%Z); v_ (-3) (Some 0%Z) (Some 4%Z)]
    [("a", Removed (Solved (zq 2))); ("b", Active 0); ("c", Active 1); ("d", Active 2); ("s", Removed (FunctionOf (zq 8 / zq 3) [(1%nat, zq 2 / zq 3); (2%nat, 1 / zq 3)]))]
    [1; 2; 3]%nat.
Definition s_main_solution : solution := mk_solution (zq (-25) / zq 2) [("a", zq 2); ("b", zq 3); ("c", zq 2); ("d", zq 5 / zq 2); ("s", 0)].
(** x + y >= 10 with 0 <= x, y <= 4 *)
Definition s_infeasible : general :=
  new_general Minimize 1 [zcol [(0%nat, 1%Z)]; zcol [(0%nat, 1%Z)]] [Greater] [zq 10]
    [v_ 1 (Some 0%Z) (Some 4%Z); v_ 1 (Some 0%Z) (Some 4%Z)] ["x"; "y"] 0.
(** min x - y with x >= 3 (as a row) and y free *)
Definition s_unbounded : general :=
  new_general Minimize 1 [zcol [(0%nat, 1%Z)]; []] [Greater] [zq 3] [v_ 1 (Some 0%Z) None; v_ (-1) None None] ["x"; "y"] 0.
(** max 2x - y with 3x <= 6, x + y - s = 1, 0 <= x <= 5, -1 <= y, 0 <= s *)
Definition s_all : general :=
  new_general Maximize 2 [zcol [(0%nat, 3%Z); (1%nat, 1%Z)]; zcol [(1%nat, 1%Z)]; zcol [(1%nat, (-1)%Z)]] [Less; Equal] [zq 6; zq 1]
    [v_ 2 (Some 2%Z) (Some 5%Z); v_ (-1) (Some (-1)%Z) None; v_ 0 (Some 0%Z) None] ["x"; "y"; "s"] 0.
Definition s_all_solution : solution := mk_solution (zq 5) [("x", zq 2); ("y", zq (-1)); ("s", 0)].
(** min x + y with x + y <= 20, x <= 3 (as a row), x + 2y >= 1, 2x + y >= 1, 0 <= x, y <= 5: two rows go, no variable *)
Definition s_same : general :=
  new_general Minimize 4
    [zcol [(0%nat, 1%Z); (1%nat, 1%Z); (2%nat, 1%Z); (3%nat, 2%Z)]; zcol [(0%nat, 1%Z); (2%nat, 2%Z); (3%nat, 1%Z)]]
    [Less; Less; Greater; Greater] [zq 20; zq 3; zq 1; zq 1]
    [v_ 1 (Some 0%Z) (Some 5%Z); v_ 1 (Some 0%Z) (Some 5%Z)] ["x"; "y"] 0.
Definition s_same_after : general :=
  mk_general Minimize 0 2 [zcol [(0%nat, 1%Z); (1%nat, 2%Z)]; zcol [(0%nat, 2%Z); (1%nat, 1%Z)]] [Greater; Greater] [zq 1; zq 1]
    [v_ 1 (Some 0%Z) (Some 3%Z); v_ 1 (Some 0%Z) (Some 5%Z)] [("x", Active 0); ("y", Active 1)] [0; 1]%nat.
(** min -x - 2y + z with x + 2y <= 4, x - z <= 10 and x, y, z >= 0.  The first row gives x <= 4, which presolving
    does not keep, and on account of that bound the second row goes: it rests on the first row, which stays *)
Definition s_rests : general :=
  new_general Minimize 2 [zcol [(0%nat, 1%Z); (1%nat, 1%Z)]; zcol [(0%nat, 2%Z)]; zcol [(1%nat, (-1)%Z)]] [Less; Less] [zq 4; zq 10]
    [v_ (-1) (Some 0%Z) None; v_ (-2) (Some 0%Z) None; v_ 1 (Some 0%Z) None] ["x"; "y"; "z"] 0.
Definition s_rests_after : general :=
  mk_general Minimize 0 1 [zcol [(0%nat, 1%Z)]; zcol [(0%nat, 2%Z)]] [Less] [zq 4]
    [v_ (-1) (Some 0%Z) None; v_ (-2) (Some 0%Z) None]
    [("x", Active 0); ("y", Active 1); ("z", Removed (Solved 0))] [0; 1]%nat.

Lemma s_main_ok : general_ok s_main /\ fresh s_main. Proof. apply new_ok. vm_compute. reflexivity. Qed.
Lemma s_infeasible_ok : general_ok s_infeasible /\ fresh s_infeasible. Proof. apply new_ok. vm_compute. reflexivity. Qed.
Lemma s_unbounded_ok : general_ok s_unbounded /\ fresh s_unbounded. Proof. apply new_ok. vm_compute. reflexivity. Qed.
Lemma s_all_ok : general_ok s_all /\ fresh s_all. Proof. apply new_ok. vm_compute. reflexivity. Qed.

Definition ended {A} (r : pr A) : bool := match r with PFuel => false | _ => true end.
Lemma safe_checked fuel g : ended (presolve_changes fuel g) && safe_run fuel g = true -> safe g.
Proof. intros H. apply andb_true_iff in H. destruct H as [H1 H2]. apply (safe_check fuel); [|assumption]. intros E. rewrite E in H1. discriminate. Qed.
Lemma s_main_safe : safe s_main. Proof. apply (safe_checked 100). vm_compute. reflexivity. Qed.
Lemma s_infeasible_safe : safe s_infeasible. Proof. apply (safe_checked 100). vm_compute. reflexivity. Qed.
Lemma s_unbounded_safe : safe s_unbounded. Proof. apply (safe_checked 100). vm_compute. reflexivity. Qed.
Lemma s_all_safe : safe s_all. Proof. apply (safe_checked 100). vm_compute. reflexivity. Qed.
Lemma s_main_run : presolve 100 s_main = Go s_main_after. Proof. apply goes_to_ok. vm_compute. reflexivity. Qed.
Lemma s_main_solved : presolve_and_solve UseRows FirstProfitable 100 s_main = Ok (Solved_to s_main_solution). Proof. apply answer_is_ok. vm_compute. reflexivity. Qed.
Lemma s_infeasible_run : presolve 100 s_infeasible = Stop VInfeasible. Proof. apply stops_with_ok. vm_compute. reflexivity. Qed.
Lemma s_unbounded_run : presolve 100 s_unbounded = Stop VUnbounded. Proof. apply stops_with_ok. vm_compute. reflexivity. Qed.
Lemma s_all_run : presolve 100 s_all = Stop (VOptimum s_all_solution). Proof. apply stops_with_ok. vm_compute. reflexivity. Qed.
Lemma s_same_ok : general_ok s_same /\ fresh s_same. Proof. apply new_ok. vm_compute. reflexivity. Qed.
Lemma s_same_run : presolve 100 s_same = Go s_same_after. Proof. apply goes_to_ok. vm_compute. reflexivity. Qed.
Lemma s_same_again : presolve 100 s_same_after = Go s_same_after. Proof. apply goes_to_ok. vm_compute. reflexivity. Qed.
Lemma s_same_safe : safe_run 100 s_same = true. Proof. vm_compute. reflexivity. Qed.
Lemma s_same_safe_again : safe_run 100 s_same_after = true. Proof. vm_compute. reflexivity. Qed.
Lemma s_same_once : presolved_to s_same s_same_after.
Proof. apply (presolved_once 100 _ s_same_after); [apply s_same_safe|apply s_same_run|reflexivity|constructor]. Qed.
Lemma fewer_rows : g_rows s_same_after <> g_rows s_same. Proof. discriminate. Qed.
Lemma s_main_counts : (2 <= inequality_rows s_main_after)%nat.
Proof. apply Nat.leb_le. vm_compute. reflexivity. Qed.
Lemma s_rests_ok : general_ok s_rests /\ fresh s_rests. Proof. apply new_ok. vm_compute. reflexivity. Qed.
Lemma s_rests_safe : safe s_rests. Proof. apply (safe_checked 100). vm_compute. reflexivity. Qed.
Lemma s_rests_run : presolve 100 s_rests = Go s_rests_after. Proof. apply goes_to_ok. vm_compute. reflexivity. Qed.
(** the programs of the refuted claims are told apart *)
Lemma caught : map (safe_run 100) [w_range; w_slack; w_two; w_stale; w_dropped; w_panic] = repeat false 6.
Proof. vm_compute. reflexivity. Qed.
