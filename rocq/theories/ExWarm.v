(** * Examples for starting from a chosen basis *)
From Verif Require Export SolverQ WarmP Examples.
Local Open Scope Qc_scope.

(** x0 + x1 + s0 = 4, -x0 + s1 = -1, minimize -2 x1; the right-hand side may be negative here *)
Definition ex_warm : provider :=
  plain 2 [zcol [(0%nat, 1%Z); (1%nat, (-1)%Z)]; zcol [(0%nat, 1%Z)]; zcol [(0%nat, 1%Z)]; zcol [(1%nat, 1%Z)]] [0; zq (-2); 0; 0] [zq 4; zq (-1)] NoInit.
Lemma ex_warm_sized : well_sized ex_warm.
Proof. split; [reflexivity|]. intros j L. apply fwfb_ok. do 4 (destruct j as [|j]; [vm_compute; reflexivity|]). cbn in L. lia. Qed.
(** the inverse of the columns 2 and 0 *)
Definition ex_warm_inverse : mat := fun i j => nth j (nth i [[1; 1]; [0; zq (-1)]] []) 0.
Lemma ex_warm_feasible : feasible_basis ex_warm [2; 0]%nat.
Proof.
  exists ex_warm_inverse. split; [split; [reflexivity|split]|].
  - intros j [<-|[<-|[]]]; cbn; lia.
  - split; intros [|[|i]] [|[|j]] Li Lj; cbn in Li, Lj; try lia; apply Qc_is_canon; vm_compute; reflexivity.
  - intros [|[|i]] Li; cbn in Li; try lia; vm_compute; discriminate.
Qed.
Lemma ex_warm_runs r n : start_from r n 10 ex_warm [2; 0]%nat = Ok (FiniteOptimum [(0%nat, 1); (1%nat, zq 3)]).
Proof. apply result_is_ok. destruct r, n; vm_compute; reflexivity. Qed.
(** columns 1 and 2 are the same; columns 2 and 3 give s1 = -1 *)
Lemma ex_warm_dependent r n : start_from r n 10 ex_warm [1; 2]%nat = Panic /\ start_from r n 10 ex_warm [1; 4]%nat = Panic.
Proof. destruct r, n; vm_compute; split; reflexivity. Qed.
Lemma infeasible_start : exists p basis N x, well_sized p /\ basis_of p basis N /\
  (forall r n, start_from r n 10 p basis = Ok (FiniteOptimum x)) /\ ~ feasible p (den x).
Proof.
  exists ex_warm, [2; 3]%nat, delta, [(1%nat, zq 4); (3%nat, zq (-1))]. split; [exact ex_warm_sized|]. split; [split; [reflexivity|split]|split].
  - intros j [<-|[<-|[]]]; cbn; lia.
  - split; intros [|[|i]] [|[|j]] Li Lj; cbn in Li, Lj; try lia; apply Qc_is_canon; vm_compute; reflexivity.
  - intros r n. apply result_is_ok. destruct r, n; vm_compute; reflexivity.
  - intros [_ H]. specialize (H 3%nat). cbn in H. assert (Q : 0 <= zq (-1)) by (apply H; lia). revert Q. vm_compute. intros Q. now apply Q.
Qed.
(** one row: x0 + x1 = 2, minimize x1, from the column 1 *)
Definition ex_warm_one : provider := plain 1 [zcol [(0%nat, 1%Z)]; zcol [(0%nat, 1%Z)]] [0; 1] [zq 2] NoInit.
Lemma one_row_start : exists p basis, well_sized p /\ feasible_basis p basis /\ p_rows p = 1%nat /\ forall n, start_from UseLU n 10 p basis = Panic.
Proof.
  exists ex_warm_one, [1]%nat. split; [|split; [|split; [reflexivity|]]].
  - split; [reflexivity|]. intros j L. apply fwfb_ok. do 2 (destruct j as [|j]; [vm_compute; reflexivity|]). cbn in L. lia.
  - exists delta. split; [split; [reflexivity|split]|].
    + intros j [<-|[]]; cbn; lia.
    + split; intros [|i] [|j] Li Lj; cbn in Li, Lj; try lia; apply Qc_is_canon; vm_compute; reflexivity.
    + intros [|i] Li; cbn in Li; try lia; vm_compute; discriminate.
  - intros n. destruct n; vm_compute; reflexivity.
Qed.
Lemma no_row_start : exists p, well_sized p /\ feasible_basis p [] /\ forall r n, start_from r n 10 p [] = Panic.
Proof.
  exists (plain 0 [] [] [] NoInit). split; [|split].
  - split; [reflexivity|]. intros j L. cbn in L. lia.
  - exists delta. split; [split; [reflexivity|split]|].
    + intros j [].
    + split; intros i j Li; cbn in Li; lia.
    + intros i Li; cbn in Li; lia.
  - intros r n. destruct r, n; vm_compute; reflexivity.
Qed.
