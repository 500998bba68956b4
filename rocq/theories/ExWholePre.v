(** * Examples for whole answers after presolving *)
From Verif Require Import SpecWhole SpecFile TextPipeline TextPresolve TextPresolveP TextP FileP Pipeline PairP Presolve PreSafe ExParse Examples ExGeneral ExFile ExPresolve.
From Verif Require Export ExWhole.
From Verif Require Import Whole.
Local Open Scope string_scope.
Local Open Scope list_scope.
Local Open Scope Qc_scope.

(** a flow with a constraint on one variable only and a variable [w] that only takes up what is left over *)
Definition ex_supply : general := new_general Minimize 4
  [zcol [(0%nat, 1%Z); (1%nat, (-1)%Z)]; zcol [(0%nat, (-1)%Z); (2%nat, 1%Z)]; zcol [(1%nat, 1%Z); (2%nat, (-1)%Z)]; zcol [(1%nat, 1%Z)]; zcol [(2%nat, 1%Z); (3%nat, (-1)%Z)]]
  [Equal; Equal; Less; Less] [zq 1; zq 2; zq 4; zq (-1)]
  [v_ 0 None None; v_ 1 (Some (-2)%Z) (Some 4%Z); mk_var false (q (-1) 7) (Some (zq (-2))) (Some (zq 5)) 0 false; mk_var false 0 (Some 0) None 0 false; mk_var true (q 1 3) (Some 0) None 0 false] ["x"; "y"; "z"; "w"; "v"] 0.
Lemma supply_ok : general_ok ex_supply /\ fresh ex_supply.
Proof. apply new_ok. vm_compute. reflexivity. Qed.
Lemma supply_network : network (fun _ => true) ex_supply.
Proof.
  constructor.
  - intros [|[|[|[|i]]]] [|[|[|[|[|j]]]]] Li Lj; cbn in Li, Lj; try lia; first [left; number|right; left; number|right; right; number].
  - intros [|[|[|[|i]]]] [|[|[|[|i']]]] j Li Li' N Lj; cbn in Li, Li'; try lia; destruct j as [|[|[|[|[|j]]]]]; cbn in Lj; try lia; intros A B; first [elim A; number|elim B; number|number].
Qed.
Lemma supply_whole : whole_data ex_supply.
Proof.
  constructor.
  - intros [|[|[|[|i]]]] L; cbn in L; try lia; apply whole_zq.
  - intros [|[|[|[|i]]]] r L; cbn in L; try lia; intros E; discriminate E.
  - intros [|[|[|[|[|j]]]]] l L; cbn in L; try lia; intros E; try discriminate E; injection E as <-; first [apply whole_zq|exact whole_0].
  - intros [|[|[|[|[|j]]]]] l L; cbn in L; try lia; intros E; try discriminate E; injection E as <-; apply whole_zq.
Qed.
Definition supply_answer : solution := mk_solution (q (-38) 21) [("x", q (-1) 1); ("y", q (-2) 1); ("z", 1); ("w", 0); ("v", 1)].
Lemma supply_solved r n : presolve_and_solve r n 60 ex_supply = Ok (Solved_to supply_answer).
Proof. apply answer_is_ok. destruct r, n; vm_compute; reflexivity. Qed.
Lemma supply_safe : safe_run 60 ex_supply = true. Proof. vm_compute. reflexivity. Qed.
(** presolving removes a constraint and a variable *)
Lemma supply_changed : exists g', presolve 60 ex_supply = Go g' /\ g_rows g' = 3%nat /\ nr_vars g' = 4%nat.
Proof. assert (H : match presolve 60 ex_supply with Go g' => Nat.eqb (g_rows g') 3 && Nat.eqb (nr_vars g') 4 | _ => false end = true) by (vm_compute; reflexivity).
  destruct (presolve 60 ex_supply) as [g'| | |]; try discriminate. exists g'. apply andb_true_iff in H. destruct H as [A B]. apply Nat.eqb_eq in A, B. now repeat split.
Qed.
Lemma transport_presolved b r n : presolve_text b r n 60 transport = Got (Ok (Solved_to transport_answer)).
Proof. apply text_answer_ok. destruct b, r, n; vm_compute; reflexivity. Qed.
Lemma transport_safe b : safe_text b 60 transport = true. Proof. destruct b; vm_compute; reflexivity. Qed.
