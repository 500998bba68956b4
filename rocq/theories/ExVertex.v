(** * An example for vertices *)
From Verif Require Export VertexP ExWarm.
Local Open Scope Qc_scope.

(** x0 + x1 + s0 = 2, x0 + s1 = 2, minimize -x0 - x1: there is a line of optima *)
Definition ex_line : provider :=
  plain 2 [zcol [(0%nat, 1%Z); (1%nat, 1%Z)]; zcol [(0%nat, 1%Z)]; sbasis 0; sbasis 1] [zq (-1); zq (-1); 0; 0] [zq 2; zq 2] (PartialInit [(0%nat, 2%nat); (1%nat, 3%nat)]).
Lemma ex_line_ok : provider_ok ex_line.
Proof. apply plain_ok. vm_compute. reflexivity. Qed.
Lemma ex_line_runs r : run r FirstProfitable 10 ex_line = Ok (FiniteOptimum [(0%nat, zq 2)]).
Proof. apply result_is_ok. destruct r; vm_compute; reflexivity. Qed.
(** the middle of the line *)
Definition ex_middle : vec := fun j => nthq [1; 1; 0; 1] j.
Lemma ex_middle_optimal : optimal ex_line ex_middle.
Proof.
  destruct (run_optimum UseRows FirstProfitable 10 ex_line _ ex_line_ok (ex_line_runs _)) as [[_ M] _]. split.
  - split.
    + intros [|[|i]] L; cbn in L; try lia; apply Qc_is_canon; vm_compute; reflexivity.
    + intros [|[|[|[|j]]]] L; cbn in L; try lia; vm_compute; discriminate.
  - intros y F. specialize (M y F). replace (objective ex_line ex_middle) with (objective ex_line (den [(0%nat, zq 2)])); [assumption|]. apply Qc_is_canon. vm_compute. reflexivity.
Qed.
Lemma ex_middle_not_vertex : ~ vertex ex_line ex_middle.
Proof.
  intros V. specialize (V (fun j => nthq [1; - (1); 0; - (1)] j)). assert (Q : nthq [1; - (1); 0; - (1)] 0 = 0); [|discriminate Q]. apply V.
  - intros [|[|[|[|j]]]] L Z; cbn in L; try lia; try discriminate Z. reflexivity.
  - intros [|[|i]] L; cbn in L; try lia; apply Qc_is_canon; vm_compute; reflexivity.
  - cbn. lia.
Qed.
Lemma ex_middle_not_extreme : ~ extreme ex_line ex_middle.
Proof.
  intros V. specialize (V (nthq [zq 2; 0; 0; 0]) (nthq [0; zq 2; 0; zq 2]) (1 / zq 2)).
  destruct V with (j := 0%nat) as [V0 _]; [| | | | |cbn; lia|discriminate V0].
  - split; [intros [|[|i]] L; cbn in L; try lia; apply Qc_is_canon; vm_compute; reflexivity|intros [|[|[|[|j]]]] L; cbn in L; try lia; vm_compute; discriminate].
  - split; [intros [|[|i]] L; cbn in L; try lia; apply Qc_is_canon; vm_compute; reflexivity|intros [|[|[|[|j]]]] L; cbn in L; try lia; vm_compute; discriminate].
  - vm_compute. reflexivity.
  - vm_compute. reflexivity.
  - intros [|[|[|[|j]]]] L; cbn in L; try lia; apply Qc_is_canon; vm_compute; reflexivity.
Qed.
