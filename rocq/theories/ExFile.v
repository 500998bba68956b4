(** * A file and its optimum *)
From Verif Require Import SpecFile TextPipeline TextP FileP ExParse Examples ExGeneral.
Local Open Scope string_scope.
Local Open Scope list_scope.

(** the program of ExParse.v as a minimization *)
Definition small : string := "
* Start of the file
NAME          TESTPROB

OBJSENSE
  MIN
ROWS
* This is the cost row
 N  COST
 L  LIM1
 G  LIM2
 E  MYEQN
COLUMNS
    XONE      COST                 1   LIM1                 1
    XONE      LIM2                 1
    MARKER0   'MARKER'      'INTORG'
    YTWO      COST                 4   LIM1                 1
    YTWO      MYEQN               -1
    MARKER0   'MARKER'      'INTEND'
    ZTHREE    COST               0.5   LIM2                 1
    ZTHREE    MYEQN                1
RHS
    RHS1      LIM1                 5   LIM2                10
    RHS1      MYEQN                7
RANGES
    RNG1      LIM1               2.5
BOUNDS
 UP BND1      XONE                 4
 LO BND1      YTWO                -1
 UP BND1      YTWO                 1
 FR BND1      ZTHREE
ENDATA
".
Definition small_file : file := {|
  f_name := "TESTPROB";
  f_sense := Some Minimize;
  f_rows := [(None, "COST"); (Some KLess, "LIM1"); (Some KGreater, "LIM2"); (Some KEqual, "MYEQN")];
  f_columns := [
    Entries "XONE" [("COST", q 1 1); ("LIM1", q 1 1)]; Entries "XONE" [("LIM2", q 1 1)]; StartInteger;
    Entries "YTWO" [("COST", q 4 1); ("LIM1", q 1 1)]; Entries "YTWO" [("MYEQN", q (-1) 1)]; EndInteger;
    Entries "ZTHREE" [("COST", q 1 2); ("LIM2", q 1 1)]; Entries "ZTHREE" [("MYEQN", q 1 1)]];
  f_rhs := [("RHS1", [("LIM1", q 5 1); ("LIM2", q 10 1)]); ("RHS1", [("MYEQN", q 7 1)])];
  f_ranges := [("RNG1", [("LIM1", q 5 2)])];
  f_bounds := [(UpperContinuous (q 4 1), "BND1", "XONE"); (LowerContinuous (q (-1) 1), "BND1", "YTWO"); (UpperContinuous (q 1 1), "BND1", "YTWO"); (Free, "BND1", "ZTHREE")]
|}.
Lemma small_ok : file_ok small_file.
Proof.
  constructor; cbn [small_file f_name f_sense f_rows f_columns f_rhs f_ranges f_bounds].
  - now apply name_okb_ok.
  - intros k r H. cbn in H. repeat (destruct H as [H|H]; [injection H as <- <-; split; [now apply name_okb_ok|discriminate]|]). destruct H.
  - cbn. repeat constructor; cbn; intuition discriminate.
  - intros c values H. cbn in H. repeat (destruct H as [H|H]; [first [discriminate H|injection H as <- <-; now apply first_okb_ok]|]). destruct H.
  - cbn. repeat constructor; cbn; intuition discriminate.
  - cbn. repeat constructor; cbn; intuition discriminate.
  - intros g values H. cbn in H. repeat (destruct H as [H|H]; [injection H as <- <-; now apply first_okb_ok|]). destruct H.
  - cbn. repeat constructor; cbn; intuition discriminate.
  - intros g values H. cbn in H. repeat (destruct H as [H|H]; [injection H as <- <-; now apply first_okb_ok|]). destruct H.
  - cbn. repeat constructor; cbn; intuition discriminate.
  - intros t g c H. cbn in H. repeat (destruct H as [H|H]; [injection H as <- <- <-; split; [now apply name_okb_ok|intros X; exact X]|]). destruct H.
  - exists "COST". split; [now left|]. intros c H. cbn in H. repeat (destruct H as [H|H]; [first [discriminate H|now injection H as <-]|]). destruct H.
  - intros c r v H. cbn in H. repeat (destruct H as [H|H]; [injection H as <- <- <-; cbn; tauto|]). destruct H.
  - intros c r v H. cbn in H. repeat (destruct H as [H|H]; [injection H as <- <- <-; cbn; tauto|]). destruct H.
  - intros c r v H. cbn in H. repeat (destruct H as [H|H]; [injection H as <- <- <-; cbn; tauto|]). destruct H.
  - intros t g c H. cbn in H. repeat (destruct H as [H|H]; [injection H as <- <- <-; cbn; tauto|]). destruct H.
Qed.
Lemma small_spelled : spells small small_file.
Proof.
  assert (T : text_of (into_lines small) small) by (apply text_split; vm_compute; reflexivity).
  exists (into_lines small). split; [|exact T]. clear T.
  exists "          TESTPROB", [], (firstn 4 (skipn 4 (into_lines small))), (firstn 3 (skipn 1 (into_lines small))), (firstn 8 (skipn 9 (into_lines small))), (firstn 3 (skipn 17 (into_lines small))),
    (firstn 2 (skipn 20 (into_lines small))), (firstn 5 (skipn 22 (into_lines small))).
  split; [apply (spaced_split "          TESTPROB"); reflexivity|].
  split; [vm_compute; exists ""; split; [intros x []|]; exists "", "", "MIN"; split; [intros x []|]; split; [intros x []|]; split; [right; now left|reflexivity]|].
  split; [vm_compute; repeat (constructor; [dline|]); constructor|].
  split.
  { set (ls := firstn 8 _). vm_compute in ls. subst ls. cbn [small_file f_columns].
    constructor; [split; [now right|]; eexists; split; [constructor; [num false [1%nat] (@None (list nat))|constructor; [num false [1%nat] (@None (list nat))|constructor]]|dline]|].
    constructor; [split; [now left|]; eexists; split; [constructor; [num false [1%nat] (@None (list nat))|constructor]|dline]|].
    constructor; [exists "MARKER0"; split; [now apply first_okb_ok|dline]|].
    constructor; [split; [now right|]; eexists; split; [constructor; [num false [4%nat] (@None (list nat))|constructor; [num false [1%nat] (@None (list nat))|constructor]]|dline]|].
    constructor; [split; [now left|]; eexists; split; [constructor; [num true [1%nat] (@None (list nat))|constructor]|dline]|].
    constructor; [exists "MARKER0"; split; [now apply first_okb_ok|dline]|].
    constructor; [split; [now right|]; eexists; split; [constructor; [num false [0%nat] (Some [5%nat])|constructor; [num false [1%nat] (@None (list nat))|constructor]]|dline]|].
    constructor; [split; [now left|]; eexists; split; [constructor; [num false [1%nat] (@None (list nat))|constructor]|dline]|]. constructor. }
  split.
  { right. set (ls := firstn 3 (skipn 17 _)). vm_compute in ls. subst ls. eexists. split; [reflexivity|]. cbn [small_file f_rhs].
    constructor; [split; [now right|]; eexists; split; [constructor; [num false [5%nat] (@None (list nat))|constructor; [num false [1%nat; 0%nat] (@None (list nat))|constructor]]|dline]|].
    constructor; [split; [now left|]; eexists; split; [constructor; [num false [7%nat] (@None (list nat))|constructor]|dline]|]. constructor. }
  split.
  { right. set (ls := firstn 2 (skipn 20 _)). vm_compute in ls. subst ls. eexists. split; [reflexivity|]. cbn [small_file f_ranges].
    constructor; [split; [now left|]; eexists; split; [constructor; [num false [2%nat] (Some [5%nat])|constructor]|dline]|]. constructor. }
  split; [|vm_compute; reflexivity].
  right. set (ls := firstn 5 (skipn 22 _)). vm_compute in ls. subst ls. eexists. split; [reflexivity|]. cbn [small_file f_bounds].
  constructor; [eexists; split; [eexists; split; [num false [4%nat] (@None (list nat))|reflexivity]|dline]|].
  constructor; [eexists; split; [eexists; split; [num true [1%nat] (@None (list nat))|reflexivity]|dline]|].
  constructor; [eexists; split; [eexists; split; [num false [1%nat] (@None (list nat))|reflexivity]|dline]|].
  constructor; [eexists; split; [reflexivity|dline]|]. constructor.
Qed.
Lemma small_solvable : file_solvable small_file.
Proof.
  constructor.
  - exact (file_ok_rules _ small_ok).
  - intros c r v H. cbn in H. repeat (destruct H as [H|H]; [injection H as <- <- <-; intros Z; apply qeqb_true in Z; vm_compute in Z; discriminate Z|]). destruct H.
  - cbn. repeat constructor; cbn; intuition discriminate.
  - intros g r v H. cbn in H. destruct H as [H|[]]. injection H as <- <- <-. exists "RHS1", (q 5 1). now left.
  - intros t g g' c H. cbn in H. repeat (destruct H as [H|H]; [first [discriminate H|injection H as <- <-]|]); [|destruct H]. intros H. cbn in H. repeat (destruct H as [H|H]; [first [discriminate H|now injection H as <-]|]). destruct H.
  - intros c H. cbn in H. destruct H as [<-|[<-|[<-|[]]]].
    + exists 0%Qc. split; [|intros _; apply Qcle_refl]. intros t g T. cbn in T. repeat (destruct T as [T|T]; [first [discriminate T|injection T as <- <-; cbn; discriminate]|]). destruct T.
    + exists 0%Qc. split; [|intros _; apply Qcle_refl]. intros t g T. cbn in T. repeat (destruct T as [T|T]; [first [discriminate T|injection T as <- <-; cbn; discriminate]|]). destruct T.
    + exists 0%Qc. split; [|intros _; apply Qcle_refl]. intros t g T. cbn in T. repeat (destruct T as [T|T]; [first [discriminate T|injection T as <- <-; exact I]|]). destruct T.
Qed.
Definition small_answer : answer := Solved_to (mk_solution (q 3 1) [("XONE", q 4 1); ("YTWO", q (-1) 1); ("ZTHREE", q 6 1)]).
Definition text_answer_is (x : out (res answer)) (a : answer) : bool := match x with Got r => answer_is r a | _ => false end.
Lemma text_answer_ok x a : text_answer_is x a = true -> x = Got (Ok a).
Proof. destruct x as [r|e|]; [|discriminate|discriminate]. cbn. intros H. apply answer_is_ok in H. now rewrite H. Qed.
Lemma small_solved b r n : solve_text b r n 40 small = Got (Ok small_answer).
Proof. apply text_answer_ok. destruct b, r, n; vm_compute; reflexivity. Qed.
