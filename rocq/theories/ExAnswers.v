(** * Files with the other answers: a maximum, no solution, and no bound *)
From Verif Require Import SpecFile TextPipeline TextP FileP ExParse Examples ExGeneral.
From Verif Require Export ExFile.
Local Open Scope string_scope.
Local Open Scope list_scope.

(** two constraints [LIM1] and [LIM2] over two variables [X] and [Y] *)
Definition two_file (name : string) (sense : option direction) (cx cy ax ay bx by_ lim1 lim2 : Qc) : file := {|
  f_name := name;
  f_sense := sense;
  f_rows := [(None, "COST"); (Some KLess, "LIM1"); (Some KGreater, "LIM2")];
  f_columns := [Entries "X" [("COST", cx); ("LIM1", ax)]; Entries "X" [("LIM2", bx)]; Entries "Y" [("COST", cy); ("LIM1", ay)]; Entries "Y" [("LIM2", by_)]];
  f_rhs := [("RHS", [("LIM1", lim1); ("LIM2", lim2)])];
  f_ranges := [];
  f_bounds := []
|}.
Lemma two_ok name sense cx cy ax ay bx by_ lim1 lim2 : name_okb name = true -> file_ok (two_file name sense cx cy ax ay bx by_ lim1 lim2).
Proof.
  intros N. constructor; cbn [two_file f_name f_sense f_rows f_columns f_rhs f_ranges f_bounds].
  - now apply name_okb_ok.
  - intros k r H. cbn in H. repeat (destruct H as [H|H]; [injection H as <- <-; split; [now apply name_okb_ok|discriminate]|]). destruct H.
  - cbn. repeat constructor; cbn; intuition discriminate.
  - intros c values H. cbn in H. repeat (destruct H as [H|H]; [first [discriminate H|injection H as <- <-; now apply first_okb_ok]|]). destruct H.
  - cbn. repeat constructor; cbn; intuition discriminate.
  - cbn. repeat constructor; cbn; intuition discriminate.
  - intros g values H. cbn in H. repeat (destruct H as [H|H]; [injection H as <- <-; now apply first_okb_ok|]). destruct H.
  - cbn. repeat constructor; cbn; intuition discriminate.
  - intros g values H. destruct H.
  - cbn. repeat constructor; cbn; intuition discriminate.
  - intros t g c H. destruct H.
  - exists "COST". split; [now left|]. intros c H. cbn in H. repeat (destruct H as [H|H]; [first [discriminate H|now injection H as <-]|]). destruct H.
  - intros c r v H. cbn in H. repeat (destruct H as [H|H]; [injection H as <- <- <-; cbn; tauto|]). destruct H.
  - intros c r v H. cbn in H. repeat (destruct H as [H|H]; [injection H as <- <- <-; cbn; tauto|]). destruct H.
  - intros c r v H. destruct H.
  - intros t g c H. destruct H.
Qed.
Lemma two_solvable name sense cx cy ax ay bx by_ lim1 lim2 : name_okb name = true -> (forall v, In v [cx; cy; ax; ay; bx; by_] -> v <> 0%Qc) -> file_solvable (two_file name sense cx cy ax ay bx by_ lim1 lim2).
Proof.
  intros N NZ. constructor.
  - exact (file_ok_rules _ (two_ok _ _ _ _ _ _ _ _ _ _ N)).
  - intros c r v H. apply NZ. cbn in H |- *. repeat (destruct H as [H|H]; [injection H as <- <- <-; tauto|]). destruct H.
  - cbn. repeat constructor; cbn; intuition discriminate.
  - intros g r v H. destruct H.
  - intros t g g' c H. destruct H.
  - intros c H. exists 0%Qc. split; [intros t g []|intros _; apply Qcle_refl].
Qed.

(** maximize X + 2 Y with X + Y <= 4, X - Y >= -2 *)
Definition largest : string := "
NAME          LARGEST
OBJSENSE
  MAX
ROWS
 N  COST
 L  LIM1
 G  LIM2
COLUMNS
    X         COST                 1   LIM1                 1
    X         LIM2                 1
    Y         COST                 2   LIM1                 1
    Y         LIM2                -1
RHS
    RHS       LIM1                 4   LIM2                -2
ENDATA
".
Definition largest_file : file := two_file "LARGEST" (Some Maximize) (q 1 1) (q 2 1) (q 1 1) (q 1 1) (q 1 1) (q (-1) 1) (q 4 1) (q (-2) 1).
(** X + Y <= 1, X - Y >= 2 *)
Definition no_point : string := "
NAME          NOPOINT
ROWS
 N  COST
 L  LIM1
 G  LIM2
COLUMNS
    X         COST                 1   LIM1                 1
    X         LIM2                 1
    Y         COST                 1   LIM1                 1
    Y         LIM2                -1
RHS
    RHS       LIM1                 1   LIM2                 2
ENDATA
".
Definition no_point_file : file := two_file "NOPOINT" None (q 1 1) (q 1 1) (q 1 1) (q 1 1) (q 1 1) (q (-1) 1) (q 1 1) (q 2 1).
(** minimize -X - Y with X - Y <= 1, X + Y >= 2 *)
Definition no_bound : string := "
NAME          NOBOUND
ROWS
 N  COST
 L  LIM1
 G  LIM2
COLUMNS
    X         COST                -1   LIM1                 1
    X         LIM2                 1
    Y         COST                -1   LIM1                -1
    Y         LIM2                 1
RHS
    RHS       LIM1                 1   LIM2                 2
ENDATA
".
Definition no_bound_file : file := two_file "NOBOUND" None (q (-1) 1) (q (-1) 1) (q 1 1) (q (-1) 1) (q 1 1) (q 1 1) (q 1 1) (q 2 1).

Ltac nonzero := intros v H; cbn in H; repeat (destruct H as [<-|H]; [intros Z; apply qeqb_true in Z; vm_compute in Z; discriminate Z|]); destruct H.
Lemma largest_ok : file_ok largest_file. Proof. apply two_ok. reflexivity. Qed.
Lemma no_point_ok : file_ok no_point_file. Proof. apply two_ok. reflexivity. Qed.
Lemma no_bound_ok : file_ok no_bound_file. Proof. apply two_ok. reflexivity. Qed.
Lemma largest_solvable : file_solvable largest_file. Proof. apply two_solvable; [reflexivity|nonzero]. Qed.
Lemma no_point_solvable : file_solvable no_point_file. Proof. apply two_solvable; [reflexivity|nonzero]. Qed.
Lemma no_bound_solvable : file_solvable no_bound_file. Proof. apply two_solvable; [reflexivity|nonzero]. Qed.

Lemma largest_spelled : spells largest largest_file.
Proof.
  assert (T : text_of (into_lines largest) largest) by (apply text_split; vm_compute; reflexivity). exists (into_lines largest). split; [|exact T]. clear T.
  exists "          LARGEST", [], (firstn 3 (skipn 4 (into_lines largest))), (firstn 3 (skipn 1 (into_lines largest))), (firstn 4 (skipn 8 (into_lines largest))), (firstn 2 (skipn 12 (into_lines largest))), [], [].
  split; [apply (spaced_split "          LARGEST"); reflexivity|].
  split; [vm_compute; exists ""; split; [intros x []|]; exists "", "", "MAX"; split; [intros x []|]; split; [intros x []|]; split; [right; now left|reflexivity]|].
  split; [vm_compute; repeat (constructor; [dline|]); constructor|].
  split.
  { set (ls := firstn 4 _). vm_compute in ls. subst ls. cbn [largest_file two_file f_columns].
    constructor; [split; [now right|]; eexists; split; [constructor; [num false [1%nat] (@None (list nat))|constructor; [num false [1%nat] (@None (list nat))|constructor]]|dline]|].
    constructor; [split; [now left|]; eexists; split; [constructor; [num false [1%nat] (@None (list nat))|constructor]|dline]|].
    constructor; [split; [now right|]; eexists; split; [constructor; [num false [2%nat] (@None (list nat))|constructor; [num false [1%nat] (@None (list nat))|constructor]]|dline]|].
    constructor; [split; [now left|]; eexists; split; [constructor; [num true [1%nat] (@None (list nat))|constructor]|dline]|]. constructor. }
  split.
  { right. set (ls := firstn 2 (skipn 12 _)). vm_compute in ls. subst ls. eexists. split; [reflexivity|]. cbn [largest_file two_file f_rhs].
    constructor; [split; [now right|]; eexists; split; [constructor; [num false [4%nat] (@None (list nat))|constructor; [num true [2%nat] (@None (list nat))|constructor]]|dline]|]. constructor. }
  split; [now left|]. split; [now left|]. vm_compute. reflexivity.
Qed.
Lemma no_point_spelled : spells no_point no_point_file.
Proof.
  assert (T : text_of (into_lines no_point) no_point) by (apply text_split; vm_compute; reflexivity). exists (into_lines no_point). split; [|exact T]. clear T.
  exists "          NOPOINT", [], (firstn 3 (skipn 2 (into_lines no_point))), (firstn 1 (skipn 1 (into_lines no_point))), (firstn 4 (skipn 6 (into_lines no_point))), (firstn 2 (skipn 10 (into_lines no_point))), [], [].
  split; [apply (spaced_split "          NOPOINT"); reflexivity|].
  split; [vm_compute; exists ""; split; [intros x []|]; reflexivity|].
  split; [vm_compute; repeat (constructor; [dline|]); constructor|].
  split.
  { set (ls := firstn 4 _). vm_compute in ls. subst ls. cbn [no_point_file two_file f_columns].
    constructor; [split; [now right|]; eexists; split; [constructor; [num false [1%nat] (@None (list nat))|constructor; [num false [1%nat] (@None (list nat))|constructor]]|dline]|].
    constructor; [split; [now left|]; eexists; split; [constructor; [num false [1%nat] (@None (list nat))|constructor]|dline]|].
    constructor; [split; [now right|]; eexists; split; [constructor; [num false [1%nat] (@None (list nat))|constructor; [num false [1%nat] (@None (list nat))|constructor]]|dline]|].
    constructor; [split; [now left|]; eexists; split; [constructor; [num true [1%nat] (@None (list nat))|constructor]|dline]|]. constructor. }
  split.
  { right. set (ls := firstn 2 (skipn 10 _)). vm_compute in ls. subst ls. eexists. split; [reflexivity|]. cbn [no_point_file two_file f_rhs].
    constructor; [split; [now right|]; eexists; split; [constructor; [num false [1%nat] (@None (list nat))|constructor; [num false [2%nat] (@None (list nat))|constructor]]|dline]|]. constructor. }
  split; [now left|]. split; [now left|]. vm_compute. reflexivity.
Qed.
Lemma no_bound_spelled : spells no_bound no_bound_file.
Proof.
  assert (T : text_of (into_lines no_bound) no_bound) by (apply text_split; vm_compute; reflexivity). exists (into_lines no_bound). split; [|exact T]. clear T.
  exists "          NOBOUND", [], (firstn 3 (skipn 2 (into_lines no_bound))), (firstn 1 (skipn 1 (into_lines no_bound))), (firstn 4 (skipn 6 (into_lines no_bound))), (firstn 2 (skipn 10 (into_lines no_bound))), [], [].
  split; [apply (spaced_split "          NOBOUND"); reflexivity|].
  split; [vm_compute; exists ""; split; [intros x []|]; reflexivity|].
  split; [vm_compute; repeat (constructor; [dline|]); constructor|].
  split.
  { set (ls := firstn 4 _). vm_compute in ls. subst ls. cbn [no_bound_file two_file f_columns].
    constructor; [split; [now right|]; eexists; split; [constructor; [num true [1%nat] (@None (list nat))|constructor; [num false [1%nat] (@None (list nat))|constructor]]|dline]|].
    constructor; [split; [now left|]; eexists; split; [constructor; [num false [1%nat] (@None (list nat))|constructor]|dline]|].
    constructor; [split; [now right|]; eexists; split; [constructor; [num true [1%nat] (@None (list nat))|constructor; [num true [1%nat] (@None (list nat))|constructor]]|dline]|].
    constructor; [split; [now left|]; eexists; split; [constructor; [num false [1%nat] (@None (list nat))|constructor]|dline]|]. constructor. }
  split.
  { right. set (ls := firstn 2 (skipn 10 _)). vm_compute in ls. subst ls. eexists. split; [reflexivity|]. cbn [no_bound_file two_file f_rhs].
    constructor; [split; [now right|]; eexists; split; [constructor; [num false [1%nat] (@None (list nat))|constructor; [num false [2%nat] (@None (list nat))|constructor]]|dline]|]. constructor. }
  split; [now left|]. split; [now left|]. vm_compute. reflexivity.
Qed.
Lemma largest_solved b r n : exists s, solve_text b r n 40 largest = Got (Ok (Solved_to s)) /\ s_values s = [("X", q 1 1); ("Y", q 3 1)].
Proof. exists (mk_solution (q (-7) 1) [("X", q 1 1); ("Y", q 3 1)]). split; [|reflexivity]. apply text_answer_ok. destruct b, r, n; vm_compute; reflexivity. Qed.
Lemma no_point_solved b r n : solve_text b r n 40 no_point = Got (Ok NoSolution).
Proof. apply text_answer_ok. destruct b, r, n; vm_compute; reflexivity. Qed.
Lemma no_bound_solved b r n : solve_text b r n 40 no_bound = Got (Ok NoBound).
Proof. apply text_answer_ok. destruct b, r, n; vm_compute; reflexivity. Qed.
