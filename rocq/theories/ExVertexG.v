(** * Examples for vertices of general form programs and of files *)
From Verif Require Import Examples SpecVertex VertexG TextPipeline ExGeneral ExParse ExFile ExTextPresolve.
Local Open Scope string_scope.
Local Open Scope list_scope.
Local Open Scope Qc_scope.

(** a file whose columns have bounds *)
Definition wrong_optimum : solution := mk_solution (q (-5) 1) [("X", q 5 1); ("S", 0)].
Lemma wrong_solved b r n : solve_text b r n 40 wrong_text = Got (Ok (Solved_to wrong_optimum)).
Proof. apply text_answer_ok. destruct b, r, n; vm_compute; reflexivity. Qed.
Lemma wrong_bounded : fbounded wrong_file.
Proof.
  intros c H. cbn in H. destruct H as [<-|[<-|[]]].
  - exists (q 6 1). intros [A _]. specialize (A _ _ (or_introl eq_refl)). cbn in A. apply A. vm_compute. reflexivity.
  - exists (- (1)). intros [_ B]. assert (Z : 0 <= - (1)); [|apply Z; vm_compute; reflexivity]. apply B.
    intros t g [T|[]]. discriminate T.
Qed.
(** the point halfway between two solutions is none *)
Lemma wrong_middle : ~ fextreme wrong_file (fun c => if String.eqb c "X" then q 5 1 else 1).
Proof.
  intros E. destruct (E (fun c => if String.eqb c "X" then q 5 1 else 0) (fun c => if String.eqb c "X" then q 5 1 else zq 2) (1 / zq 2)) with (c := "S") as [D _].
  - split.
    + intros k r H. cbn in H. destruct H as [H|[H|[]]]; [discriminate|]. injection H as <- <-. intros b0 [(g & B)|[_ B]]; [|elim (B "RHS1" (q 1 1)); now left].
      cbn in B. destruct B as [B|[]]. injection B as <- <-. split; [intros _; vm_compute; discriminate|]. intros w (g & []).
    + intros c H. cbn in H. destruct H as [<-|[<-|[]]]; (split; [intros t g [T|[]]; try discriminate T; injection T as <- <-; vm_compute; discriminate|intros _; vm_compute; discriminate]).
  - split.
    + intros k r H. cbn in H. destruct H as [H|[H|[]]]; [discriminate|]. injection H as <- <-. intros b0 [(g & B)|[_ B]]; [|elim (B "RHS1" (q 1 1)); now left].
      cbn in B. destruct B as [B|[]]. injection B as <- <-. split; [intros _; vm_compute; discriminate|]. intros w (g & []).
    + intros c H. cbn in H. destruct H as [<-|[<-|[]]]; (split; [intros t g [T|[]]; try discriminate T; injection T as <- <-; vm_compute; discriminate|intros _; vm_compute; discriminate]).
  - vm_compute. reflexivity.
  - vm_compute. reflexivity.
  - intros c H. cbn in H. destruct H as [<-|[<-|[]]]; apply Qc_is_canon; vm_compute; reflexivity.
  - cbn. now right; left.
  - apply (f_equal this) in D. vm_compute in D. discriminate D.
Qed.

(** a program whose variables have bounds *)
Lemma shape_bounded : bounded ex_shape.
Proof. intros [|[|j]] L; cbn in L; try lia; intros [A B]; discriminate. Qed.

(** min 0 with x <= 5 and x free: the vertex 5 is an optimum, 0 is reported *)
Definition ex_ray : general := new_general Minimize 1 [zcol [(0%nat, 1%Z)]] [Less] [zq 5] [v_ 0 None None] ["x"] 0.
Lemma ray_ok : general_ok ex_ray /\ fresh ex_ray.
Proof. apply new_ok. vm_compute. reflexivity. Qed.
Definition ray_answer : solution := mk_solution 0 [("x", 0)].
Lemma ray_solved r n : solve_general r n 10 ex_ray = Ok (Solved_to ray_answer).
Proof. apply answer_is_ok. destruct r, n; vm_compute; reflexivity. Qed.
Lemma ray_feasible x : gfeasible ex_ray x <-> x 0%nat <= zq 5.
Proof.
  assert (V : row_value ex_ray x 0 = x 0%nat).
  { change (0 + den [(0%nat, zq 1)] 0 * x 0%nat = x 0%nat). cbn [den Nat.eqb]. replace (zq 1) with 1 by (apply Qc_is_canon; vm_compute; reflexivity). ring. }
  split.
  - intros [A _]. specialize (A 0%nat (Nat.lt_0_succ 0)). rewrite V in A. exact A.
  - intros H. split.
    + intros [|i] L; cbn in L; [|lia]. rewrite V. exact H.
    + intros [|j] L; cbn in L; [|lia]. split; intros; discriminate.
Qed.
Lemma ray_vertex : goptimal ex_ray (fun _ => zq 5) /\ gextreme ex_ray (fun _ => zq 5).
Proof.
  split.
  - split; [apply ray_feasible; apply Qcle_refl|]. intros y _. cbn [better ex_ray new_general g_objective].
    assert (C : forall x, gcost ex_ray x = 0). { intros x. change (0 + (0 + zq 0 * x 0%nat) = 0). replace (zq 0) with 0 by (apply Qc_is_canon; vm_compute; reflexivity). ring. }
    rewrite !C. apply Qcle_refl.
  - intros y z a Y Z A B E. apply ray_feasible in Y. apply ray_feasible in Z. specialize (E 0%nat (Nat.lt_0_succ 0)).
    assert (P : 0 <= a * (zq 5 - y 0%nat)) by (apply Qc_mul_nonneg; qlra). assert (Q : 0 <= (1 - a) * (zq 5 - z 0%nat)) by (apply Qc_mul_nonneg; qlra).
    assert (S : a * (zq 5 - y 0%nat) + (1 - a) * (zq 5 - z 0%nat) = 0).
    { transitivity (zq 5 - (a * y 0%nat + (1 - a) * z 0%nat)); [ring|]. rewrite <- E. ring. }
    assert (P0 : a * (zq 5 - y 0%nat) = 0) by (apply Qcle_antisym; [|assumption]; qlra).
    assert (Q0 : (1 - a) * (zq 5 - z 0%nat) = 0) by (apply Qcle_antisym; [|assumption]; qlra).
    intros [|j] L; cbn in L; [|lia]. split.
    + apply Qcmult_integral in P0. destruct P0; qlra.
    + apply Qcmult_integral in Q0. destruct Q0; qlra.
Qed.
Lemma ray_middle : ~ gextreme ex_ray (solution_point ray_answer).
Proof.
  intros E. destruct (E (fun _ => 1) (fun _ => - (1)) (1 / zq 2)) with (j := 0%nat) as [D _].
  - apply ray_feasible. vm_compute. discriminate.
  - apply ray_feasible. vm_compute. discriminate.
  - vm_compute. reflexivity.
  - vm_compute. reflexivity.
  - intros [|j] L; cbn in L; [|lia]. apply Qc_is_canon. vm_compute. reflexivity.
  - cbn. lia.
  - apply (f_equal this) in D. vm_compute in D. discriminate D.
Qed.
