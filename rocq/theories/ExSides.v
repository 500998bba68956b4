(** * Programs of limits and of demands *)
From Verif Require Import SpecSizes Examples ExPresolve ExGeneral PreSafe SpecSides PackP.
Local Open Scope Qc_scope.
Local Open Scope string_scope.
(** max 3x + 2y + z with x + 2y <= 4, x <= 3 (as a row), x + y + z <= 100 and x, y >= 0, 0 <= z <= 5.  Presolving
    makes the second row a bound, drops the third one on account of that bound, of y <= 2 (found in the first row)
    and of z <= 5, and gives z the value 5 *)
Definition o_pack : general :=
  new_general Maximize 3
    [zcol [(0%nat, 1%Z); (1%nat, 1%Z); (2%nat, 1%Z)]; zcol [(0%nat, 2%Z); (2%nat, 1%Z)]; zcol [(2%nat, 1%Z)]]
    [Less; Less; Less] [zq 4; zq 3; zq 100]
    [v_ 3 (Some 0%Z) None; v_ 2 (Some 0%Z) None; v_ 1 (Some 0%Z) (Some 5%Z)] ["x"; "y"; "z"] 0.
Definition o_pack_after : general :=
  mk_general Maximize (zq 5) 1 [zcol [(0%nat, 1%Z)]; zcol [(0%nat, 2%Z)]] [Less] [zq 4] [v_ 3 (Some 0%Z) (Some 3%Z); v_ 2 (Some 0%Z) None]
    [("x", Active 0); ("y", Active 1); ("z", Removed (Solved (zq 5)))] [0; 1]%nat.
Definition o_pack_solution : solution := mk_solution (zq (-5)) [("x", zq 3); ("y", zq 1 / zq 2); ("z", zq 5)].
(** min 2x + 5y with x + 3y >= 5, x >= 1 (as a row), x + 2y >= 4, x + y >= -1 and x, y >= 0: the second row becomes a
    bound, the last one goes *)
Definition o_cover : general :=
  new_general Minimize 4
    [zcol [(0%nat, 1%Z); (1%nat, 1%Z); (2%nat, 1%Z); (3%nat, 1%Z)]; zcol [(0%nat, 3%Z); (2%nat, 2%Z); (3%nat, 1%Z)]]
    [Greater; Greater; Greater; Greater] [zq 5; zq 1; zq 4; zq (-1)]
    [v_ 2 (Some 0%Z) None; v_ 5 (Some 0%Z) None] ["x"; "y"] 0.
Definition o_cover_after : general :=
  mk_general Minimize 0 2 [zcol [(0%nat, 1%Z); (1%nat, 1%Z)]; zcol [(0%nat, 3%Z); (1%nat, 2%Z)]] [Greater; Greater] [zq 5; zq 4]
    [v_ 2 (Some 1%Z) None; v_ 5 (Some 0%Z) None] [("x", Active 0); ("y", Active 1)] [0; 1]%nat.
Definition o_cover_solution : solution := mk_solution (zq 9) [("x", zq 2); ("y", zq 1)].
(** max 2a + 3b with a + 2b <= 4, b <= 3 (as a row), a <= 9 and b >= -2: a has no smallest value *)
Definition o_limits : general :=
  new_general Maximize 2 [zcol [(0%nat, 1%Z)]; zcol [(0%nat, 2%Z); (1%nat, 1%Z)]] [Less; Less] [zq 4; zq 3]
    [v_ 2 None (Some 9%Z); v_ 3 (Some (-2)%Z) None] ["a"; "b"] 0.
Definition o_limits_after : general :=
  mk_general Maximize 0 1 [zcol [(0%nat, 1%Z)]; zcol [(0%nat, 2%Z)]] [Less] [zq 4] [v_ 2 None (Some 9%Z); v_ 3 (Some (-2)%Z) (Some 3%Z)]
    [("a", Active 0); ("b", Active 1)] [0; 1]%nat.

Lemma o_pack_ok : general_ok o_pack /\ fresh o_pack. Proof. apply new_ok. vm_compute. reflexivity. Qed.
Lemma o_cover_ok : general_ok o_cover /\ fresh o_cover. Proof. apply new_ok. vm_compute. reflexivity. Qed.
Lemma o_limits_ok : general_ok o_limits /\ fresh o_limits. Proof. apply new_ok. vm_compute. reflexivity. Qed.
Ltac each_one i H := match type of H with
  | (_ < S _)%nat => destruct i as [|i]; [|apply Nat.succ_lt_mono in H; each_one i H]
  | (_ < 0)%nat => inversion H
  end.
Ltac each H := match type of H with (?i < ?k)%nat => let k' := eval compute in k in change (i < k')%nat in H; each_one i H end.
Ltac qdone := first [apply qleb_true; vm_compute; reflexivity | apply qltb_true; vm_compute; reflexivity | intros X; apply (f_equal (fun v => qeqb v 0)) in X; vm_compute in X; discriminate].
Lemma o_pack_priced : priced o_pack.
Proof. intros j L. each L; qdone. Qed.
Lemma o_pack_packing : packing o_pack.
Proof.
  constructor.
  - intros i L. each L; reflexivity.
  - intros i j L1 L2. each L1; each L2; qdone.
  - intros i L. each L; qdone.
  - intros j L. each L; reflexivity.
  - intros j h L E. each L; cbn in E; try discriminate; injection E as <-; qdone.
  - intros j L. each L; [right|right|left; discriminate]; exists 0%nat; split; try (cbn; lia); qdone.
Qed.
Lemma o_cover_covering : covering o_cover.
Proof.
  constructor.
  - reflexivity.
  - intros i L. each L; reflexivity.
  - intros i j L1 L2. each L1; each L2; qdone.
  - intros i L. exists 0%nat. split; [cbn; lia|]. each L; qdone.
  - intros j L. each L; now split.
  - intros j L. each L; qdone.
Qed.
Lemma o_limits_limits : limits o_limits.
Proof.
  constructor.
  - intros i L. each L; reflexivity.
  - intros i j L1 L2. each L1; each L2; qdone.
  - intros j l h L. each L; discriminate.
  - intros i L H. each L.
    + exfalso. apply (H 0%nat); [cbn; lia|qdone|reflexivity].
    + qdone.
Qed.
Lemma o_limits_sided : one_sided o_limits.
Proof. split; [left; apply o_limits_limits|]. intros j L. each L; qdone. Qed.
Lemma o_pack_sided : one_sided o_pack. Proof. apply packing_sided; [apply o_pack_packing|apply o_pack_priced]. Qed.
Lemma o_cover_sided : one_sided o_cover. Proof. apply covering_sided, o_cover_covering. Qed.
Lemma o_pack_run : presolve 100 o_pack = Go o_pack_after. Proof. apply goes_to_ok. vm_compute. reflexivity. Qed.
Lemma o_cover_run : presolve 100 o_cover = Go o_cover_after. Proof. apply goes_to_ok. vm_compute. reflexivity. Qed.
Lemma o_limits_run : presolve 100 o_limits = Go o_limits_after. Proof. apply goes_to_ok. vm_compute. reflexivity. Qed.
Lemma o_pack_solved : presolve_and_solve UseRows FirstProfitable 100 o_pack = Ok (Solved_to o_pack_solution). Proof. apply answer_is_ok. vm_compute. reflexivity. Qed.
Lemma o_cover_solved : presolve_and_solve UseRows FirstProfitable 100 o_cover = Ok (Solved_to o_cover_solution). Proof. apply answer_is_ok. vm_compute. reflexivity. Qed.
Lemma o_cover_counts : (2 <= inequality_rows o_cover_after)%nat. Proof. apply Nat.leb_le. vm_compute. reflexivity. Qed.
(** the program of a refuted claim (ExPresolve.v) is one of demands, but its slack variable has no cost *)
Lemma w_slack_demands : demands w_slack.
Proof.
  constructor.
  - intros i L. each L; reflexivity.
  - intros i j L1 L2. each L1; each L2; qdone.
  - intros j l h L E1 E2. each L; cbn in E1, E2; try discriminate. injection E1 as <-. injection E2 as <-. qdone.
  - intros i L H. each L. exfalso. apply (H 1%nat); [cbn; lia|qdone|reflexivity].
Qed.
Lemma costs_needed : exists g fuel s, general_ok g /\ fresh g /\ demands g /\ presolve fuel g = Stop (VOptimum s) /\ ~ gfeasible g (solution_point s).
Proof. exact (ex_intro _ w_slack (ex_intro _ 100%nat (ex_intro _ w_slack_solution (conj (proj1 w_slack_ok) (conj (proj2 w_slack_ok) (conj w_slack_demands (conj w_slack_run w_slack_wrong))))))). Qed.
