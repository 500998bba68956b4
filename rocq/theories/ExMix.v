(** * Programs between two others *)
From Verif Require Import SpecFile TextPipeline TextP FileP ExParse Examples ExGeneral.
From Verif Require Export ExPair MixP.
Local Open Scope string_scope.
Local Open Scope list_scope.
Local Open Scope Qc_scope.

(** like [cheapest], with other right-hand sides or other costs *)
Definition dearer : string := "
NAME          DEARER
ROWS
 N  WORTH
 G  X
 G  Y
COLUMNS
    LIM1      WORTH                4   X                    1
    LIM1      Y                    1
    LIM2      WORTH               -2   X                    1
    LIM2      Y                   -1
RHS
    RHS       X                    4   Y                    2
BOUNDS
 MI BND       LIM2
ENDATA
".
Definition dearer_file : file := price_file "DEARER" None KGreater "LIM2" (q 4 1) (q (-2) 1) (q 1 1) (q 1 1) (q 1 1) (q (-1) 1) (q 4 1) (q 2 1).
Lemma dearer_ok : file_ok dearer_file. Proof. apply price_ok; [reflexivity|reflexivity|now right]. Qed.
Lemma dearer_solvable : file_solvable dearer_file. Proof. apply price_solvable; [reflexivity|reflexivity|now right|nonzero]. Qed.
Lemma dearer_spelled : spells dearer dearer_file.
Proof.
  assert (T : text_of (into_lines dearer) dearer) by (apply text_split; vm_compute; reflexivity). exists (into_lines dearer). split; [|exact T]. clear T.
  exists "          DEARER", [], (firstn 3 (skipn 2 (into_lines dearer))), (firstn 1 (skipn 1 (into_lines dearer))), (firstn 4 (skipn 6 (into_lines dearer))), (firstn 2 (skipn 10 (into_lines dearer))), [], (firstn 2 (skipn 12 (into_lines dearer))).
  split; [apply (spaced_split "          DEARER"); reflexivity|].
  split; [vm_compute; exists ""; split; [intros x []|]; reflexivity|].
  split; [vm_compute; repeat (constructor; [dline|]); constructor|].
  split.
  { set (ls := firstn 4 _). vm_compute in ls. subst ls. cbn [dearer_file price_file f_columns].
    constructor; [split; [now right|]; eexists; split; [constructor; [num false [4%nat] (@None (list nat))|constructor; [num false [1%nat] (@None (list nat))|constructor]]|dline]|].
    constructor; [split; [now left|]; eexists; split; [constructor; [num false [1%nat] (@None (list nat))|constructor]|dline]|].
    constructor; [split; [now right|]; eexists; split; [constructor; [num true [2%nat] (@None (list nat))|constructor; [num false [1%nat] (@None (list nat))|constructor]]|dline]|].
    constructor; [split; [now left|]; eexists; split; [constructor; [num true [1%nat] (@None (list nat))|constructor]|dline]|]. constructor. }
  split.
  { right. set (ls := firstn 2 (skipn 10 _)). vm_compute in ls. subst ls. eexists. split; [reflexivity|]. cbn [dearer_file price_file f_rhs].
    constructor; [split; [now right|]; eexists; split; [constructor; [num false [4%nat] (@None (list nat))|constructor; [num false [2%nat] (@None (list nat))|constructor]]|dline]|]. constructor. }
  split; [now left|]. split; [|vm_compute; reflexivity].
  right. set (ls := firstn 2 (skipn 12 _)). vm_compute in ls. subst ls. eexists. split; [reflexivity|]. cbn [dearer_file price_file f_bounds].
  constructor; [eexists; split; [reflexivity|dline]|]. constructor.
Qed.
Definition halfway : string := "
NAME          HALFWAY
ROWS
 N  WORTH
 G  X
 G  Y
COLUMNS
    LIM1      WORTH                4   X                    1
    LIM1      Y                    1
    LIM2      WORTH               -2   X                    1
    LIM2      Y                   -1
RHS
    RHS       X                  2.5   Y                    2
BOUNDS
 MI BND       LIM2
ENDATA
".
Definition halfway_file : file := price_file "HALFWAY" None KGreater "LIM2" (q 4 1) (q (-2) 1) (q 1 1) (q 1 1) (q 1 1) (q (-1) 1) (q 5 2) (q 2 1).
Lemma halfway_ok : file_ok halfway_file. Proof. apply price_ok; [reflexivity|reflexivity|now right]. Qed.
Lemma halfway_solvable : file_solvable halfway_file. Proof. apply price_solvable; [reflexivity|reflexivity|now right|nonzero]. Qed.
Lemma halfway_spelled : spells halfway halfway_file.
Proof.
  assert (T : text_of (into_lines halfway) halfway) by (apply text_split; vm_compute; reflexivity). exists (into_lines halfway). split; [|exact T]. clear T.
  exists "          HALFWAY", [], (firstn 3 (skipn 2 (into_lines halfway))), (firstn 1 (skipn 1 (into_lines halfway))), (firstn 4 (skipn 6 (into_lines halfway))), (firstn 2 (skipn 10 (into_lines halfway))), [], (firstn 2 (skipn 12 (into_lines halfway))).
  split; [apply (spaced_split "          HALFWAY"); reflexivity|].
  split; [vm_compute; exists ""; split; [intros x []|]; reflexivity|].
  split; [vm_compute; repeat (constructor; [dline|]); constructor|].
  split.
  { set (ls := firstn 4 _). vm_compute in ls. subst ls. cbn [halfway_file price_file f_columns].
    constructor; [split; [now right|]; eexists; split; [constructor; [num false [4%nat] (@None (list nat))|constructor; [num false [1%nat] (@None (list nat))|constructor]]|dline]|].
    constructor; [split; [now left|]; eexists; split; [constructor; [num false [1%nat] (@None (list nat))|constructor]|dline]|].
    constructor; [split; [now right|]; eexists; split; [constructor; [num true [2%nat] (@None (list nat))|constructor; [num false [1%nat] (@None (list nat))|constructor]]|dline]|].
    constructor; [split; [now left|]; eexists; split; [constructor; [num true [1%nat] (@None (list nat))|constructor]|dline]|]. constructor. }
  split.
  { right. set (ls := firstn 2 (skipn 10 _)). vm_compute in ls. subst ls. eexists. split; [reflexivity|]. cbn [halfway_file price_file f_rhs].
    constructor; [split; [now right|]; eexists; split; [constructor; [num false [2%nat] (Some [5%nat])|constructor; [num false [2%nat] (@None (list nat))|constructor]]|dline]|]. constructor. }
  split; [now left|]. split; [|vm_compute; reflexivity].
  right. set (ls := firstn 2 (skipn 12 _)). vm_compute in ls. subst ls. eexists. split; [reflexivity|]. cbn [halfway_file price_file f_bounds].
  constructor; [eexists; split; [reflexivity|dline]|]. constructor.
Qed.
Definition steeper : string := "
NAME          STEEPER
ROWS
 N  WORTH
 G  X
 G  Y
COLUMNS
    LIM1      WORTH                4   X                    1
    LIM1      Y                    1
    LIM2      WORTH              -10   X                    1
    LIM2      Y                   -1
RHS
    RHS       X                    1   Y                    2
BOUNDS
 MI BND       LIM2
ENDATA
".
Definition steeper_file : file := price_file "STEEPER" None KGreater "LIM2" (q 4 1) (q (-10) 1) (q 1 1) (q 1 1) (q 1 1) (q (-1) 1) (q 1 1) (q 2 1).
Lemma steeper_ok : file_ok steeper_file. Proof. apply price_ok; [reflexivity|reflexivity|now right]. Qed.
Lemma steeper_solvable : file_solvable steeper_file. Proof. apply price_solvable; [reflexivity|reflexivity|now right|nonzero]. Qed.
Lemma steeper_spelled : spells steeper steeper_file.
Proof.
  assert (T : text_of (into_lines steeper) steeper) by (apply text_split; vm_compute; reflexivity). exists (into_lines steeper). split; [|exact T]. clear T.
  exists "          STEEPER", [], (firstn 3 (skipn 2 (into_lines steeper))), (firstn 1 (skipn 1 (into_lines steeper))), (firstn 4 (skipn 6 (into_lines steeper))), (firstn 2 (skipn 10 (into_lines steeper))), [], (firstn 2 (skipn 12 (into_lines steeper))).
  split; [apply (spaced_split "          STEEPER"); reflexivity|].
  split; [vm_compute; exists ""; split; [intros x []|]; reflexivity|].
  split; [vm_compute; repeat (constructor; [dline|]); constructor|].
  split.
  { set (ls := firstn 4 _). vm_compute in ls. subst ls. cbn [steeper_file price_file f_columns].
    constructor; [split; [now right|]; eexists; split; [constructor; [num false [4%nat] (@None (list nat))|constructor; [num false [1%nat] (@None (list nat))|constructor]]|dline]|].
    constructor; [split; [now left|]; eexists; split; [constructor; [num false [1%nat] (@None (list nat))|constructor]|dline]|].
    constructor; [split; [now right|]; eexists; split; [constructor; [num true [1%nat; 0%nat] (@None (list nat))|constructor; [num false [1%nat] (@None (list nat))|constructor]]|dline]|].
    constructor; [split; [now left|]; eexists; split; [constructor; [num true [1%nat] (@None (list nat))|constructor]|dline]|]. constructor. }
  split.
  { right. set (ls := firstn 2 (skipn 10 _)). vm_compute in ls. subst ls. eexists. split; [reflexivity|]. cbn [steeper_file price_file f_rhs].
    constructor; [split; [now right|]; eexists; split; [constructor; [num false [1%nat] (@None (list nat))|constructor; [num false [2%nat] (@None (list nat))|constructor]]|dline]|]. constructor. }
  split; [now left|]. split; [|vm_compute; reflexivity].
  right. set (ls := firstn 2 (skipn 12 _)). vm_compute in ls. subst ls. eexists. split; [reflexivity|]. cbn [steeper_file price_file f_bounds].
  constructor; [eexists; split; [reflexivity|dline]|]. constructor.
Qed.
Definition middling : string := "
NAME          MIDDLING
ROWS
 N  WORTH
 G  X
 G  Y
COLUMNS
    LIM1      WORTH                4   X                    1
    LIM1      Y                    1
    LIM2      WORTH               -6   X                    1
    LIM2      Y                   -1
RHS
    RHS       X                    1   Y                    2
BOUNDS
 MI BND       LIM2
ENDATA
".
Definition middling_file : file := price_file "MIDDLING" None KGreater "LIM2" (q 4 1) (q (-6) 1) (q 1 1) (q 1 1) (q 1 1) (q (-1) 1) (q 1 1) (q 2 1).
Lemma middling_ok : file_ok middling_file. Proof. apply price_ok; [reflexivity|reflexivity|now right]. Qed.
Lemma middling_solvable : file_solvable middling_file. Proof. apply price_solvable; [reflexivity|reflexivity|now right|nonzero]. Qed.
Lemma middling_spelled : spells middling middling_file.
Proof.
  assert (T : text_of (into_lines middling) middling) by (apply text_split; vm_compute; reflexivity). exists (into_lines middling). split; [|exact T]. clear T.
  exists "          MIDDLING", [], (firstn 3 (skipn 2 (into_lines middling))), (firstn 1 (skipn 1 (into_lines middling))), (firstn 4 (skipn 6 (into_lines middling))), (firstn 2 (skipn 10 (into_lines middling))), [], (firstn 2 (skipn 12 (into_lines middling))).
  split; [apply (spaced_split "          MIDDLING"); reflexivity|].
  split; [vm_compute; exists ""; split; [intros x []|]; reflexivity|].
  split; [vm_compute; repeat (constructor; [dline|]); constructor|].
  split.
  { set (ls := firstn 4 _). vm_compute in ls. subst ls. cbn [middling_file price_file f_columns].
    constructor; [split; [now right|]; eexists; split; [constructor; [num false [4%nat] (@None (list nat))|constructor; [num false [1%nat] (@None (list nat))|constructor]]|dline]|].
    constructor; [split; [now left|]; eexists; split; [constructor; [num false [1%nat] (@None (list nat))|constructor]|dline]|].
    constructor; [split; [now right|]; eexists; split; [constructor; [num true [6%nat] (@None (list nat))|constructor; [num false [1%nat] (@None (list nat))|constructor]]|dline]|].
    constructor; [split; [now left|]; eexists; split; [constructor; [num true [1%nat] (@None (list nat))|constructor]|dline]|]. constructor. }
  split.
  { right. set (ls := firstn 2 (skipn 10 _)). vm_compute in ls. subst ls. eexists. split; [reflexivity|]. cbn [middling_file price_file f_rhs].
    constructor; [split; [now right|]; eexists; split; [constructor; [num false [1%nat] (@None (list nat))|constructor; [num false [2%nat] (@None (list nat))|constructor]]|dline]|]. constructor. }
  split; [now left|]. split; [|vm_compute; reflexivity].
  right. set (ls := firstn 2 (skipn 12 _)). vm_compute in ls. subst ls. eexists. split; [reflexivity|]. cbn [middling_file price_file f_bounds].
  constructor; [eexists; split; [reflexivity|dline]|]. constructor.
Qed.
Definition dearer_answer : answer := Solved_to (mk_solution (q 16 1) [("LIM1", q 4 1); ("LIM2", q 0 1)]).
Definition halfway_answer : answer := Solved_to (mk_solution (q 10 1) [("LIM1", q 5 2); ("LIM2", q 0 1)]).
Definition steeper_answer : answer := Solved_to (mk_solution (q 8 1) [("LIM1", q 2 1); ("LIM2", q 0 1)]).
Definition middling_answer : answer := Solved_to (mk_solution (q 8 1) [("LIM1", q 2 1); ("LIM2", q 0 1)]).
Lemma mix_answered : answered dearer_file dearer_answer /\ answered halfway_file halfway_answer /\ answered steeper_file steeper_answer /\ answered middling_file middling_answer.
Proof.
  split; [|split; [|split]].
  - apply (from_free _ _ Checked UseLU DescentAlongObjective 40 dearer dearer_ok dearer_spelled). apply text_answer_ok. vm_compute. reflexivity.
  - apply (from_free _ _ Checked UseLU DescentAlongObjective 40 halfway halfway_ok halfway_spelled). apply text_answer_ok. vm_compute. reflexivity.
  - apply (from_free _ _ Checked UseLU DescentAlongObjective 40 steeper steeper_ok steeper_spelled). apply text_answer_ok. vm_compute. reflexivity.
  - apply (from_free _ _ Checked UseLU DescentAlongObjective 40 middling middling_ok middling_spelled). apply text_answer_ok. vm_compute. reflexivity.
Qed.
Lemma price_rhs name sense k low c1 c2 x1 y1 x2 y2 bx by_ r b : is_constraint (price_file name sense k low c1 c2 x1 y1 x2 y2 bx by_) r ->
  frhs (price_file name sense k low c1 c2 x1 y1 x2 y2 bx by_) r b <-> b = if String.eqb r "X" then bx else by_.
Proof.
  intros H. apply constraint_of in H. cbn in H. unfold frhs. cbn. destruct H as [<-|[<-|[]]]; cbn; split.
  - intros [[g [H|[H|[]]]]|[_ H]]; [now injection H|discriminate H|]. elim (H "RHS" bx). now left.
  - intros ->. left. exists "RHS". now left.
  - intros [[g [H|[H|[]]]]|[_ H]]; [discriminate H|now injection H|]. elim (H "RHS" by_). right. now left.
  - intros ->. left. exists "RHS". right. now left.
Qed.
Lemma halfway_between : between_rhs (q 1 2) cheapest_file dearer_file halfway_file.
Proof.
  constructor; [now constructor|now constructor|]. intros r b0 b1 R B0 B1.
  assert (R0 : is_constraint cheapest_file r) by exact R. assert (R1 : is_constraint dearer_file r) by exact R.
  apply price_rhs in B0; [|exact R0]. apply price_rhs in B1; [|exact R1]. apply price_rhs; [exact R|]. subst b0 b1. destruct (String.eqb r "X"); apply Qc_is_canon; vm_compute; reflexivity.
Qed.
Lemma middling_between : between_costs (q 1 2) cheapest_file steeper_file middling_file.
Proof.
  constructor; [constructor; try reflexivity..|].
  - intros c r R. apply constraint_of in R. cbn in R. destruct R as [<-|[<-|[]]]; unfold frow_value; cbn -[Qcmult Qcplus q]; reflexivity.
  - intros c r R. apply constraint_of in R. cbn in R. destruct R as [<-|[<-|[]]]; unfold frow_value; cbn -[Qcmult Qcplus q]; reflexivity.
  - intros c C. cbn in C. destruct C as [<-|[<-|[]]]; apply Qc_is_canon; vm_compute; reflexivity.
Qed.
Definition largest_solution : solution := mk_solution (q (-7) 1) [("X", q 1 1); ("Y", q 3 1)].
Definition dearer_point : valuation := fun c => if String.eqb c "LIM1" then q 4 1 else 0.
Definition cheapest_rhs : valuation := fun r => if String.eqb r "X" then q 1 1 else q 2 1.
Definition dearer_rhs : valuation := fun r => if String.eqb r "X" then q 4 1 else q 2 1.
Lemma dearer_case : other_rhs cheapest_file dearer_file /\ ffeasible dearer_file dearer_point /\ fcost dearer_file dearer_point = q 16 1 /\
  (forall r, is_constraint cheapest_file r -> frhs cheapest_file r (cheapest_rhs r)) /\ (forall r, is_constraint cheapest_file r -> frhs dearer_file r (dearer_rhs r)) /\
  expected_change cheapest_file (answer_at largest_solution) cheapest_rhs dearer_rhs = q 3 1.
Proof.
  split; [now constructor|]. split; [|split; [apply Qc_is_canon; vm_compute; reflexivity|split; [|split; [|apply Qc_is_canon; vm_compute; reflexivity]]]].
  - split.
    + intros k r K b B. assert (R : is_constraint dearer_file r) by now exists k. apply price_rhs in B; [|exact R]. subst b. split; [intros _|intros w [g []]]. cbn in K. destruct K as [K|[K|[K|[]]]]; [discriminate K|injection K as <- <-..]; apply qleb_true; vm_compute; reflexivity.
    + intros c C. apply low_allowed. cbn in C. destruct C as [<-|[<-|[]]]; apply qleb_true; vm_compute; reflexivity.
  - intros r R. apply price_rhs; [exact R|]. reflexivity.
  - intros r R. apply price_rhs; [exact R|]. reflexivity.
Qed.
