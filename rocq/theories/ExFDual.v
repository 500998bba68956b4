(** * Certificates of concrete files *)
From Verif Require Import SpecFile TextPipeline ExParse Examples ExGeneral.
From Verif Require Export FDualP ExFile ExAnswers.
Local Open Scope string_scope.
Local Open Scope list_scope.
Local Open Scope Qc_scope.

Definition at_name (l : list (string * Qc)) : valuation := fun c => match find (fun '(n, _) => String.eqb n c) l with Some (_, v) => v | None => 0 end.
Lemma plain_row f k r b z g : frow_holds f k r z -> In (g, r, b) (vector_values (f_rhs f)) -> (forall w, ~ frange f r w) -> plain_holds k b z.
Proof. intros H B N. apply (H b (or_introl (ex_intro _ g B))). exact N. Qed.
Lemma plain_row_back f k r b z g : In (g, r, b) (vector_values (f_rhs f)) -> (forall g' b', In (g', r, b') (vector_values (f_rhs f)) -> b' = b) -> (forall w, ~ frange f r w) -> plain_holds k b z -> frow_holds f k r z.
Proof. intros B U N H b' [[g' B']|[_ B']]; [|now apply B' in B]. rewrite (U g' b' B'). split; [now intros _|]. intros w W. now apply N in W. Qed.
Ltac no_range := intros w [g W]; cbn in W; repeat (destruct W as [W|W]; [discriminate W|]); destruct W.

(** COST = LIM2 - 1/2 MYEQN + 7/2 YTWO >= 10 - 7/2 - 7/2 *)
Lemma small_proof : fproves_bound small_file (at_name [("LIM2", 1); ("MYEQN", q (-1) 2)]) (at_name [("YTWO", q 7 2)]) (q 3 1).
Proof.
  exists (at_name [("LIM2", q 10 1); ("MYEQN", q (-7) 2)]), (at_name [("YTWO", q (-7) 2)]). split; [|split; [|split]].
  - intros x. unfold fcost, frow_value, cost_row. cbn -[Qcmult Qcplus Q2Qc q]. set (a := x "XONE"). set (b := x "YTWO"). set (c := x "ZTHREE"). clearbody a b c. unfold q. qlra.
  - intros k r R z Z. cbn in R. destruct R as [R|[R|[R|[R|[]]]]]; [discriminate R|injection R as <- <-..].
    + cbn. qlra.
    + apply (plain_row _ _ _ (q 10 1) z "RHS1") in Z; [|cbn; tauto|no_range]. cbn -[q] in Z |- *. unfold q in *. qlra.
    + apply (plain_row _ _ _ (q 7 1) z "RHS1") in Z; [|cbn; tauto|no_range]. cbn -[q] in Z |- *. rewrite Z. unfold q. qlra.
  - intros c C z [Z _]. cbn in C. destruct C as [<-|[<-|[<-|[]]]]; [cbn; qlra| |cbn; qlra].
    specialize (Z (LowerContinuous (q (-1) 1)) "BND1" ltac:(cbn; tauto)). cbn -[q] in Z |- *. unfold q in *. qlra.
  - apply Qc_is_canon. vm_compute. reflexivity.
Qed.
(** - COST = -3/2 LIM1 + 1/2 LIM2 >= -6 - 1 *)
Lemma largest_proof : fproves_bound largest_file (at_name [("LIM1", q (-3) 2); ("LIM2", q 1 2)]) (at_name []) (q 7 1).
Proof.
  exists (at_name [("LIM1", q (-6) 1); ("LIM2", q (-1) 1)]), (at_name []). split; [|split; [|split]].
  - intros x. unfold fcost, frow_value, cost_row. cbn -[Qcmult Qcplus Q2Qc q]. set (a := x "X"). set (b := x "Y"). clearbody a b. unfold q. qlra.
  - intros k r R z Z. cbn in R. destruct R as [R|[R|[R|[]]]]; [discriminate R|injection R as <- <-..].
    + apply (plain_row _ _ _ (q 4 1) z "RHS") in Z; [|cbn; tauto|no_range]. cbn -[q] in Z |- *. unfold q in *. qlra.
    + apply (plain_row _ _ _ (q (-2) 1) z "RHS") in Z; [|cbn; tauto|no_range]. cbn -[q] in Z |- *. unfold q in *. qlra.
  - intros c C z _. cbn. qlra.
  - apply Qc_is_canon. vm_compute. reflexivity.
Qed.
(** 0 = - LIM1 + LIM2 + 2 Y >= - 1 + 2 *)
Lemma no_point_proof : fproves_infeasible no_point_file (at_name [("LIM1", q (-1) 1); ("LIM2", 1)]) (at_name [("Y", q 2 1)]).
Proof.
  exists 1. split; [apply qltb_true; vm_compute; reflexivity|]. exists (at_name [("LIM1", q (-1) 1); ("LIM2", q 2 1)]), (at_name []). split; [|split; [|split]].
  - intros x. unfold frow_value. cbn -[Qcmult Qcplus Q2Qc q]. set (a := x "X"). set (b := x "Y"). clearbody a b. unfold q. qlra.
  - intros k r R z Z. cbn in R. destruct R as [R|[R|[R|[]]]]; [discriminate R|injection R as <- <-..].
    + apply (plain_row _ _ _ (q 1 1) z "RHS") in Z; [|cbn; tauto|no_range]. cbn -[q] in Z |- *. unfold q in *. qlra.
    + apply (plain_row _ _ _ (q 2 1) z "RHS") in Z; [|cbn; tauto|no_range]. cbn -[q] in Z |- *. unfold q in *. qlra.
  - intros c C z [_ Z]. specialize (Z (fun t g X => False_ind _ X)). cbn in C. destruct C as [<-|[<-|[]]]; cbn -[q]; unfold q; qlra.
  - apply Qc_is_canon. vm_compute. reflexivity.
Qed.
Lemma no_bound_proof : fray no_bound_file (at_name [("X", 1); ("Y", 1)]).
Proof.
  split; [|split].
  - intros k r R z t Z T. cbn in R. destruct R as [R|[R|[R|[]]]]; [discriminate R|injection R as <- <-..].
    + apply (plain_row _ _ _ (q 1 1) z "RHS") in Z; [|cbn; tauto|no_range]. apply (plain_row_back _ _ _ (q 1 1) _ "RHS"); [cbn; tauto|intros g b B; cbn in B; destruct B as [B|[B|[]]]; congruence|no_range|].
      unfold frow_value. cbn -[q Qcmult Qcplus] in Z |- *. unfold q in *. qlra.
    + apply (plain_row _ _ _ (q 2 1) z "RHS") in Z; [|cbn; tauto|no_range]. apply (plain_row_back _ _ _ (q 2 1) _ "RHS"); [cbn; tauto|intros g b B; cbn in B; destruct B as [B|[B|[]]]; congruence|no_range|].
      unfold frow_value. cbn -[q Qcmult Qcplus] in Z |- *. unfold q in *. qlra.
  - intros c C z t [_ Z] T. specialize (Z (fun t g X => False_ind _ X)). split; [intros b g []|intros _]. cbn in C. destruct C as [<-|[<-|[]]]; cbn -[q Qcmult Qcplus]; qlra.
  - apply qltb_true. vm_compute. reflexivity.
Qed.
