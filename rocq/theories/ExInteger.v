(** * A program with an integer column and its branches *)
From Verif Require Import Qcx SpecInteger IntegerP OrderP UnitsP CasesP TextP FileP ExParse Examples ExGeneral ExFile ExTextPresolve ExOrder ExUnits.
Local Open Scope string_scope.
Local Open Scope list_scope.

(** the program of ExOrder.v with XONE an integer *)
Definition mixed : string := "NAME MIXED
ROWS
 N COST
 L LIM1
 E MYEQN
COLUMNS
 XONE COST 1 LIM1 1
 YTWO COST 4 LIM1 1
 YTWO MYEQN -1
 ZTHREE COST 0.5 MYEQN 1
RHS
 RHS1 LIM1 5 MYEQN 7
RANGES
 RNG1 LIM1 2.5
BOUNDS
 UI BND1 XONE 4
 LO BND1 YTWO -1
 UP BND1 YTWO 2
 FR BND1 ZTHREE
ENDATA
".
Definition mixed_file : file := {|
  f_name := "MIXED";
  f_sense := None;
  f_rows := [(None, "COST"); (Some KLess, "LIM1"); (Some KEqual, "MYEQN")];
  f_columns := [
    Entries "XONE" [("COST", q 1 1); ("LIM1", q 1 1)];
    Entries "YTWO" [("COST", q 4 1); ("LIM1", q 1 1)]; Entries "YTWO" [("MYEQN", q (-1) 1)];
    Entries "ZTHREE" [("COST", q 1 2); ("MYEQN", q 1 1)]];
  f_rhs := [("RHS1", [("LIM1", q 5 1); ("MYEQN", q 7 1)])];
  f_ranges := [("RNG1", [("LIM1", q 5 2)])];
  f_bounds := [(UpperInteger (q 4 1), "BND1", "XONE"); (LowerContinuous (q (-1) 1), "BND1", "YTWO"); (UpperContinuous (q 2 1), "BND1", "YTWO"); (Free, "BND1", "ZTHREE")]
|}.
Lemma mixed_ok : file_ok mixed_file.
Proof.
  constructor; cbn [mixed_file f_name f_sense f_rows f_columns f_rhs f_ranges f_bounds].
  - now apply name_okb_ok.
  - intros k r H. cbn in H. repeat (destruct H as [H|H]; [injection H as <- <-; split; [now apply name_okb_ok|discriminate]|]). destruct H.
  - cbn. repeat constructor; cbn; intuition discriminate.
  - intros c values H. cbn in H. repeat (destruct H as [H|H]; [first [discriminate H|injection H as <- <-; now apply first_okb_ok]|]). destruct H.
  - cbn. repeat constructor; cbn; intuition discriminate.
  - cbn. repeat constructor; cbn; intuition discriminate.
  - intros g values H. cbn in H. repeat (destruct H as [H|H]; [injection H as <- <-; now apply first_okb_ok|]). destruct H.
  - cbn. repeat constructor; cbn; intuition discriminate.
  - intros g values H. cbn in H. repeat (destruct H as [H|H]; [injection H as <- <-; now apply first_okb_ok|]). destruct H.
  - cbn. repeat constructor; cbn; intuition discriminate.
  - intros t g c H. cbn in H. repeat (destruct H as [H|H]; [injection H as <- <- <-; split; [now apply name_okb_ok|intros X; exact X]|]). destruct H.
  - exists "COST". split; [now left|]. intros c H. cbn in H. repeat (destruct H as [H|H]; [first [discriminate H|now injection H as <-]|]). destruct H.
  - intros c r v H. cbn in H. repeat (destruct H as [H|H]; [injection H as <- <- <-; cbn; tauto|]). destruct H.
  - intros c r v H. cbn in H. repeat (destruct H as [H|H]; [injection H as <- <- <-; cbn; tauto|]). destruct H.
  - intros c r v H. cbn in H. repeat (destruct H as [H|H]; [injection H as <- <- <-; cbn; tauto|]). destruct H.
  - intros t g c H. cbn in H. repeat (destruct H as [H|H]; [injection H as <- <- <-; cbn; tauto|]). destruct H.
Qed.
Lemma mixed_spelled : spells mixed mixed_file.
Proof.
  assert (T : text_of (into_lines mixed) mixed) by (apply text_split; vm_compute; reflexivity).
  exists (into_lines mixed). split; [|exact T]. clear T.
  exists " MIXED", [], (firstn 3 (skipn 2 (into_lines mixed))), ["ROWS"], (firstn 4 (skipn 6 (into_lines mixed))), (firstn 2 (skipn 10 (into_lines mixed))),
    (firstn 2 (skipn 12 (into_lines mixed))), (firstn 5 (skipn 14 (into_lines mixed))).
  split; [apply (spaced_split " MIXED"); reflexivity|].
  split; [exists ""; split; [intros x []|reflexivity]|].
  split; [vm_compute; repeat (constructor; [dline|]); constructor|].
  split.
  { set (ls := firstn 4 (skipn 6 _)). vm_compute in ls. subst ls. cbn [mixed_file f_columns].
    constructor; [split; [now right|]; eexists; split; [constructor; [num false [1%nat] (@None (list nat))|constructor; [num false [1%nat] (@None (list nat))|constructor]]|dline]|].
    constructor; [split; [now right|]; eexists; split; [constructor; [num false [4%nat] (@None (list nat))|constructor; [num false [1%nat] (@None (list nat))|constructor]]|dline]|].
    constructor; [split; [now left|]; eexists; split; [constructor; [num true [1%nat] (@None (list nat))|constructor]|dline]|].
    constructor; [split; [now right|]; eexists; split; [constructor; [num false [0%nat] (Some [5%nat])|constructor; [num false [1%nat] (@None (list nat))|constructor]]|dline]|].
    constructor. }
  split.
  { right. set (ls := firstn 2 (skipn 10 _)). vm_compute in ls. subst ls. eexists. split; [reflexivity|]. cbn [mixed_file f_rhs].
    constructor; [split; [now right|]; eexists; split; [constructor; [num false [5%nat] (@None (list nat))|constructor; [num false [7%nat] (@None (list nat))|constructor]]|dline]|].
    constructor. }
  split.
  { right. set (ls := firstn 2 (skipn 12 _)). vm_compute in ls. subst ls. eexists. split; [reflexivity|]. cbn [mixed_file f_ranges].
    constructor; [split; [now left|]; eexists; split; [constructor; [num false [2%nat] (Some [5%nat])|constructor]|dline]|].
    constructor. }
  split; [|vm_compute; reflexivity].
  right. set (ls := firstn 5 (skipn 14 _)). vm_compute in ls. subst ls. eexists. split; [reflexivity|]. cbn [mixed_file f_bounds].
  constructor; [eexists; split; [eexists; split; [num false [4%nat] (@None (list nat))|reflexivity]|dline]|].
  constructor; [eexists; split; [eexists; split; [num true [1%nat] (@None (list nat))|reflexivity]|dline]|].
  constructor; [eexists; split; [eexists; split; [num false [2%nat] (@None (list nat))|reflexivity]|dline]|].
  constructor; [eexists; split; [reflexivity|dline]|].
  constructor.
Qed.
Lemma mixed_solvable : file_solvable mixed_file.
Proof.
  constructor.
  - exact (file_ok_rules _ mixed_ok).
  - intros c r v H. cbn in H. repeat (destruct H as [H|H]; [injection H as <- <- <-; intros Z; apply qeqb_true in Z; vm_compute in Z; discriminate Z|]). destruct H.
  - cbn. repeat constructor; cbn; intuition discriminate.
  - intros g r v H. cbn in H. destruct H as [H|[]]. injection H as <- <- <-. exists "RHS1", (q 5 1). now left.
  - intros t g g' c H. cbn in H. repeat (destruct H as [H|H]; [first [discriminate H|injection H as <- <-]|]); [|destruct H]. intros H. cbn in H. repeat (destruct H as [H|H]; [first [discriminate H|now injection H as <-]|]). destruct H.
  - intros c H. cbn in H. repeat (destruct H as [<-|H]; [|]); [..|destruct H].
    + exists 0%Qc. split; [|intros _; apply Qcle_refl]. intros t g T. cbn in T. repeat (destruct T as [T|T]; [first [discriminate T|injection T as <- <-; cbn; discriminate]|]). destruct T.
    + exists 0%Qc. split; [|intros _; apply Qcle_refl]. intros t g T. cbn in T. repeat (destruct T as [T|T]; [first [discriminate T|injection T as <- <-; cbn; discriminate]|]). destruct T.
    + exists 0%Qc. split; [|intros _; apply Qcle_refl]. intros t g T. cbn in T. repeat (destruct T as [T|T]; [first [discriminate T|injection T as <- <-; exact I]|]). destruct T.
Qed.
Definition mixed_answer : answer := Solved_to (mk_solution (q 5 2) [("XONE", q 7 2); ("YTWO", q (-1) 1); ("ZTHREE", q 6 1)]).
Lemma mixed_solved b r n : solve_text b r n 40 mixed = Got (Ok mixed_answer).
Proof. apply text_answer_ok. destruct b, r, n; vm_compute; reflexivity. Qed.
Lemma mixed_answered : answered mixed_file mixed_answer.
Proof. exact (from_free _ _ Checked UseRows FirstProfitable 40 mixed mixed_ok mixed_spelled (mixed_solved _ _ _)). Qed.
(** XONE at most 3 *)
Definition down : string := "NAME MIXED
ROWS
 N COST
 L LIM1
 E MYEQN
COLUMNS
 XONE COST 1 LIM1 1
 YTWO COST 4 LIM1 1
 YTWO MYEQN -1
 ZTHREE COST 0.5 MYEQN 1
RHS
 RHS1 LIM1 5 MYEQN 7
RANGES
 RNG1 LIM1 2.5
BOUNDS
 UI BND1 XONE 4
 LO BND1 YTWO -1
 UP BND1 YTWO 2
 FR BND1 ZTHREE
 UP BND2 XONE 3
ENDATA
".
Definition down_file : file := {|
  f_name := "MIXED";
  f_sense := None;
  f_rows := [(None, "COST"); (Some KLess, "LIM1"); (Some KEqual, "MYEQN")];
  f_columns := [
    Entries "XONE" [("COST", q 1 1); ("LIM1", q 1 1)];
    Entries "YTWO" [("COST", q 4 1); ("LIM1", q 1 1)]; Entries "YTWO" [("MYEQN", q (-1) 1)];
    Entries "ZTHREE" [("COST", q 1 2); ("MYEQN", q 1 1)]];
  f_rhs := [("RHS1", [("LIM1", q 5 1); ("MYEQN", q 7 1)])];
  f_ranges := [("RNG1", [("LIM1", q 5 2)])];
  f_bounds := [(UpperInteger (q 4 1), "BND1", "XONE"); (LowerContinuous (q (-1) 1), "BND1", "YTWO"); (UpperContinuous (q 2 1), "BND1", "YTWO"); (Free, "BND1", "ZTHREE"); (UpperContinuous (q 3 1), "BND2", "XONE")]
|}.
Lemma down_ok : file_ok down_file.
Proof.
  constructor; cbn [down_file f_name f_sense f_rows f_columns f_rhs f_ranges f_bounds].
  - now apply name_okb_ok.
  - intros k r H. cbn in H. repeat (destruct H as [H|H]; [injection H as <- <-; split; [now apply name_okb_ok|discriminate]|]). destruct H.
  - cbn. repeat constructor; cbn; intuition discriminate.
  - intros c values H. cbn in H. repeat (destruct H as [H|H]; [first [discriminate H|injection H as <- <-; now apply first_okb_ok]|]). destruct H.
  - cbn. repeat constructor; cbn; intuition discriminate.
  - cbn. repeat constructor; cbn; intuition discriminate.
  - intros g values H. cbn in H. repeat (destruct H as [H|H]; [injection H as <- <-; now apply first_okb_ok|]). destruct H.
  - cbn. repeat constructor; cbn; intuition discriminate.
  - intros g values H. cbn in H. repeat (destruct H as [H|H]; [injection H as <- <-; now apply first_okb_ok|]). destruct H.
  - cbn. repeat constructor; cbn; intuition discriminate.
  - intros t g c H. cbn in H. repeat (destruct H as [H|H]; [injection H as <- <- <-; split; [now apply name_okb_ok|intros X; exact X]|]). destruct H.
  - exists "COST". split; [now left|]. intros c H. cbn in H. repeat (destruct H as [H|H]; [first [discriminate H|now injection H as <-]|]). destruct H.
  - intros c r v H. cbn in H. repeat (destruct H as [H|H]; [injection H as <- <- <-; cbn; tauto|]). destruct H.
  - intros c r v H. cbn in H. repeat (destruct H as [H|H]; [injection H as <- <- <-; cbn; tauto|]). destruct H.
  - intros c r v H. cbn in H. repeat (destruct H as [H|H]; [injection H as <- <- <-; cbn; tauto|]). destruct H.
  - intros t g c H. cbn in H. repeat (destruct H as [H|H]; [injection H as <- <- <-; cbn; tauto|]). destruct H.
Qed.
Lemma down_spelled : spells down down_file.
Proof.
  assert (T : text_of (into_lines down) down) by (apply text_split; vm_compute; reflexivity).
  exists (into_lines down). split; [|exact T]. clear T.
  exists " MIXED", [], (firstn 3 (skipn 2 (into_lines down))), ["ROWS"], (firstn 4 (skipn 6 (into_lines down))), (firstn 2 (skipn 10 (into_lines down))),
    (firstn 2 (skipn 12 (into_lines down))), (firstn 6 (skipn 14 (into_lines down))).
  split; [apply (spaced_split " MIXED"); reflexivity|].
  split; [exists ""; split; [intros x []|reflexivity]|].
  split; [vm_compute; repeat (constructor; [dline|]); constructor|].
  split.
  { set (ls := firstn 4 (skipn 6 _)). vm_compute in ls. subst ls. cbn [down_file f_columns].
    constructor; [split; [now right|]; eexists; split; [constructor; [num false [1%nat] (@None (list nat))|constructor; [num false [1%nat] (@None (list nat))|constructor]]|dline]|].
    constructor; [split; [now right|]; eexists; split; [constructor; [num false [4%nat] (@None (list nat))|constructor; [num false [1%nat] (@None (list nat))|constructor]]|dline]|].
    constructor; [split; [now left|]; eexists; split; [constructor; [num true [1%nat] (@None (list nat))|constructor]|dline]|].
    constructor; [split; [now right|]; eexists; split; [constructor; [num false [0%nat] (Some [5%nat])|constructor; [num false [1%nat] (@None (list nat))|constructor]]|dline]|].
    constructor. }
  split.
  { right. set (ls := firstn 2 (skipn 10 _)). vm_compute in ls. subst ls. eexists. split; [reflexivity|]. cbn [down_file f_rhs].
    constructor; [split; [now right|]; eexists; split; [constructor; [num false [5%nat] (@None (list nat))|constructor; [num false [7%nat] (@None (list nat))|constructor]]|dline]|].
    constructor. }
  split.
  { right. set (ls := firstn 2 (skipn 12 _)). vm_compute in ls. subst ls. eexists. split; [reflexivity|]. cbn [down_file f_ranges].
    constructor; [split; [now left|]; eexists; split; [constructor; [num false [2%nat] (Some [5%nat])|constructor]|dline]|].
    constructor. }
  split; [|vm_compute; reflexivity].
  right. set (ls := firstn 6 (skipn 14 _)). vm_compute in ls. subst ls. eexists. split; [reflexivity|]. cbn [down_file f_bounds].
  constructor; [eexists; split; [eexists; split; [num false [4%nat] (@None (list nat))|reflexivity]|dline]|].
  constructor; [eexists; split; [eexists; split; [num true [1%nat] (@None (list nat))|reflexivity]|dline]|].
  constructor; [eexists; split; [eexists; split; [num false [2%nat] (@None (list nat))|reflexivity]|dline]|].
  constructor; [eexists; split; [reflexivity|dline]|].
  constructor; [eexists; split; [eexists; split; [num false [3%nat] (@None (list nat))|reflexivity]|dline]|].
  constructor.
Qed.
Lemma down_solvable : file_solvable down_file.
Proof.
  constructor.
  - exact (file_ok_rules _ down_ok).
  - intros c r v H. cbn in H. repeat (destruct H as [H|H]; [injection H as <- <- <-; intros Z; apply qeqb_true in Z; vm_compute in Z; discriminate Z|]). destruct H.
  - cbn. repeat constructor; cbn; intuition discriminate.
  - intros g r v H. cbn in H. destruct H as [H|[]]. injection H as <- <- <-. exists "RHS1", (q 5 1). now left.
  - intros t g g' c H. cbn in H. repeat (destruct H as [H|H]; [first [discriminate H|injection H as <- <-]|]); [|destruct H]. intros H. cbn in H. repeat (destruct H as [H|H]; [first [discriminate H|now injection H as <-]|]). destruct H.
  - intros c H. cbn in H. repeat (destruct H as [<-|H]; [|]); [..|destruct H].
    + exists 0%Qc. split; [|intros _; apply Qcle_refl]. intros t g T. cbn in T. repeat (destruct T as [T|T]; [first [discriminate T|injection T as <- <-; cbn; discriminate]|]). destruct T.
    + exists 0%Qc. split; [|intros _; apply Qcle_refl]. intros t g T. cbn in T. repeat (destruct T as [T|T]; [first [discriminate T|injection T as <- <-; cbn; discriminate]|]). destruct T.
    + exists 0%Qc. split; [|intros _; apply Qcle_refl]. intros t g T. cbn in T. repeat (destruct T as [T|T]; [first [discriminate T|injection T as <- <-; exact I]|]). destruct T.
Qed.
Definition down_answer : answer := Solved_to (mk_solution (q 17 4) [("XONE", q 3 1); ("YTWO", q (-1) 2); ("ZTHREE", q 13 2)]).
Lemma down_solved b r n : solve_text b r n 40 down = Got (Ok down_answer).
Proof. apply text_answer_ok. destruct b, r, n; vm_compute; reflexivity. Qed.
Lemma down_answered : answered down_file down_answer.
Proof. exact (from_free _ _ Checked UseRows FirstProfitable 40 down down_ok down_spelled (down_solved _ _ _)). Qed.
(** XONE at least 4 *)
Definition up : string := "NAME MIXED
ROWS
 N COST
 L LIM1
 E MYEQN
COLUMNS
 XONE COST 1 LIM1 1
 YTWO COST 4 LIM1 1
 YTWO MYEQN -1
 ZTHREE COST 0.5 MYEQN 1
RHS
 RHS1 LIM1 5 MYEQN 7
RANGES
 RNG1 LIM1 2.5
BOUNDS
 UI BND1 XONE 4
 LO BND1 YTWO -1
 UP BND1 YTWO 2
 FR BND1 ZTHREE
 LO BND2 XONE 4
ENDATA
".
Definition up_file : file := {|
  f_name := "MIXED";
  f_sense := None;
  f_rows := [(None, "COST"); (Some KLess, "LIM1"); (Some KEqual, "MYEQN")];
  f_columns := [
    Entries "XONE" [("COST", q 1 1); ("LIM1", q 1 1)];
    Entries "YTWO" [("COST", q 4 1); ("LIM1", q 1 1)]; Entries "YTWO" [("MYEQN", q (-1) 1)];
    Entries "ZTHREE" [("COST", q 1 2); ("MYEQN", q 1 1)]];
  f_rhs := [("RHS1", [("LIM1", q 5 1); ("MYEQN", q 7 1)])];
  f_ranges := [("RNG1", [("LIM1", q 5 2)])];
  f_bounds := [(UpperInteger (q 4 1), "BND1", "XONE"); (LowerContinuous (q (-1) 1), "BND1", "YTWO"); (UpperContinuous (q 2 1), "BND1", "YTWO"); (Free, "BND1", "ZTHREE"); (LowerContinuous (q 4 1), "BND2", "XONE")]
|}.
Lemma up_ok : file_ok up_file.
Proof.
  constructor; cbn [up_file f_name f_sense f_rows f_columns f_rhs f_ranges f_bounds].
  - now apply name_okb_ok.
  - intros k r H. cbn in H. repeat (destruct H as [H|H]; [injection H as <- <-; split; [now apply name_okb_ok|discriminate]|]). destruct H.
  - cbn. repeat constructor; cbn; intuition discriminate.
  - intros c values H. cbn in H. repeat (destruct H as [H|H]; [first [discriminate H|injection H as <- <-; now apply first_okb_ok]|]). destruct H.
  - cbn. repeat constructor; cbn; intuition discriminate.
  - cbn. repeat constructor; cbn; intuition discriminate.
  - intros g values H. cbn in H. repeat (destruct H as [H|H]; [injection H as <- <-; now apply first_okb_ok|]). destruct H.
  - cbn. repeat constructor; cbn; intuition discriminate.
  - intros g values H. cbn in H. repeat (destruct H as [H|H]; [injection H as <- <-; now apply first_okb_ok|]). destruct H.
  - cbn. repeat constructor; cbn; intuition discriminate.
  - intros t g c H. cbn in H. repeat (destruct H as [H|H]; [injection H as <- <- <-; split; [now apply name_okb_ok|intros X; exact X]|]). destruct H.
  - exists "COST". split; [now left|]. intros c H. cbn in H. repeat (destruct H as [H|H]; [first [discriminate H|now injection H as <-]|]). destruct H.
  - intros c r v H. cbn in H. repeat (destruct H as [H|H]; [injection H as <- <- <-; cbn; tauto|]). destruct H.
  - intros c r v H. cbn in H. repeat (destruct H as [H|H]; [injection H as <- <- <-; cbn; tauto|]). destruct H.
  - intros c r v H. cbn in H. repeat (destruct H as [H|H]; [injection H as <- <- <-; cbn; tauto|]). destruct H.
  - intros t g c H. cbn in H. repeat (destruct H as [H|H]; [injection H as <- <- <-; cbn; tauto|]). destruct H.
Qed.
Lemma up_spelled : spells up up_file.
Proof.
  assert (T : text_of (into_lines up) up) by (apply text_split; vm_compute; reflexivity).
  exists (into_lines up). split; [|exact T]. clear T.
  exists " MIXED", [], (firstn 3 (skipn 2 (into_lines up))), ["ROWS"], (firstn 4 (skipn 6 (into_lines up))), (firstn 2 (skipn 10 (into_lines up))),
    (firstn 2 (skipn 12 (into_lines up))), (firstn 6 (skipn 14 (into_lines up))).
  split; [apply (spaced_split " MIXED"); reflexivity|].
  split; [exists ""; split; [intros x []|reflexivity]|].
  split; [vm_compute; repeat (constructor; [dline|]); constructor|].
  split.
  { set (ls := firstn 4 (skipn 6 _)). vm_compute in ls. subst ls. cbn [up_file f_columns].
    constructor; [split; [now right|]; eexists; split; [constructor; [num false [1%nat] (@None (list nat))|constructor; [num false [1%nat] (@None (list nat))|constructor]]|dline]|].
    constructor; [split; [now right|]; eexists; split; [constructor; [num false [4%nat] (@None (list nat))|constructor; [num false [1%nat] (@None (list nat))|constructor]]|dline]|].
    constructor; [split; [now left|]; eexists; split; [constructor; [num true [1%nat] (@None (list nat))|constructor]|dline]|].
    constructor; [split; [now right|]; eexists; split; [constructor; [num false [0%nat] (Some [5%nat])|constructor; [num false [1%nat] (@None (list nat))|constructor]]|dline]|].
    constructor. }
  split.
  { right. set (ls := firstn 2 (skipn 10 _)). vm_compute in ls. subst ls. eexists. split; [reflexivity|]. cbn [up_file f_rhs].
    constructor; [split; [now right|]; eexists; split; [constructor; [num false [5%nat] (@None (list nat))|constructor; [num false [7%nat] (@None (list nat))|constructor]]|dline]|].
    constructor. }
  split.
  { right. set (ls := firstn 2 (skipn 12 _)). vm_compute in ls. subst ls. eexists. split; [reflexivity|]. cbn [up_file f_ranges].
    constructor; [split; [now left|]; eexists; split; [constructor; [num false [2%nat] (Some [5%nat])|constructor]|dline]|].
    constructor. }
  split; [|vm_compute; reflexivity].
  right. set (ls := firstn 6 (skipn 14 _)). vm_compute in ls. subst ls. eexists. split; [reflexivity|]. cbn [up_file f_bounds].
  constructor; [eexists; split; [eexists; split; [num false [4%nat] (@None (list nat))|reflexivity]|dline]|].
  constructor; [eexists; split; [eexists; split; [num true [1%nat] (@None (list nat))|reflexivity]|dline]|].
  constructor; [eexists; split; [eexists; split; [num false [2%nat] (@None (list nat))|reflexivity]|dline]|].
  constructor; [eexists; split; [reflexivity|dline]|].
  constructor; [eexists; split; [eexists; split; [num false [4%nat] (@None (list nat))|reflexivity]|dline]|].
  constructor.
Qed.
Lemma up_solvable : file_solvable up_file.
Proof.
  constructor.
  - exact (file_ok_rules _ up_ok).
  - intros c r v H. cbn in H. repeat (destruct H as [H|H]; [injection H as <- <- <-; intros Z; apply qeqb_true in Z; vm_compute in Z; discriminate Z|]). destruct H.
  - cbn. repeat constructor; cbn; intuition discriminate.
  - intros g r v H. cbn in H. destruct H as [H|[]]. injection H as <- <- <-. exists "RHS1", (q 5 1). now left.
  - intros t g g' c H. cbn in H. repeat (destruct H as [H|H]; [first [discriminate H|injection H as <- <-]|]); [|destruct H]. intros H. cbn in H. repeat (destruct H as [H|H]; [first [discriminate H|now injection H as <-]|]). destruct H.
  - intros c H. cbn in H. repeat (destruct H as [<-|H]; [|]); [..|destruct H].
    + exists (q 4 1). split; [|intros _; cbn; discriminate]. intros t g T. cbn in T. repeat (destruct T as [T|T]; [first [discriminate T|injection T as <- <-; cbn; discriminate]|]). destruct T.
    + exists 0%Qc. split; [|intros _; apply Qcle_refl]. intros t g T. cbn in T. repeat (destruct T as [T|T]; [first [discriminate T|injection T as <- <-; cbn; discriminate]|]). destruct T.
    + exists 0%Qc. split; [|intros _; apply Qcle_refl]. intros t g T. cbn in T. repeat (destruct T as [T|T]; [first [discriminate T|injection T as <- <-; exact I]|]). destruct T.
Qed.
Definition up_answer : answer := Solved_to (mk_solution (q 3 1) [("XONE", q 4 1); ("YTWO", q (-1) 1); ("ZTHREE", q 6 1)]).
Lemma up_solved b r n : solve_text b r n 40 up = Got (Ok up_answer).
Proof. apply text_answer_ok. destruct b, r, n; vm_compute; reflexivity. Qed.
Lemma up_answered : answered up_file up_answer.
Proof. exact (from_free _ _ Checked UseRows FirstProfitable 40 up up_ok up_spelled (up_solved _ _ _)). Qed.
(** a program whose costs are whole numbers for integer columns *)
Definition counted : string := "NAME COUNTED
ROWS
 N COST
 L LIM1
 E MYEQN
COLUMNS
 XONE COST 1 LIM1 2
 YTWO COST 3 LIM1 2
 YTWO MYEQN -1
 ZTHREE MYEQN 1
RHS
 RHS1 LIM1 5 MYEQN 7
RANGES
 RNG1 LIM1 2.5
BOUNDS
 UI BND1 XONE 4
 UI BND1 YTWO 2
 FR BND1 ZTHREE
ENDATA
".
Definition counted_file : file := {|
  f_name := "COUNTED";
  f_sense := None;
  f_rows := [(None, "COST"); (Some KLess, "LIM1"); (Some KEqual, "MYEQN")];
  f_columns := [
    Entries "XONE" [("COST", q 1 1); ("LIM1", q 2 1)];
    Entries "YTWO" [("COST", q 3 1); ("LIM1", q 2 1)]; Entries "YTWO" [("MYEQN", q (-1) 1)];
    Entries "ZTHREE" [("MYEQN", q 1 1)]];
  f_rhs := [("RHS1", [("LIM1", q 5 1); ("MYEQN", q 7 1)])];
  f_ranges := [("RNG1", [("LIM1", q 5 2)])];
  f_bounds := [(UpperInteger (q 4 1), "BND1", "XONE"); (UpperInteger (q 2 1), "BND1", "YTWO"); (Free, "BND1", "ZTHREE")]
|}.
Lemma counted_ok : file_ok counted_file.
Proof.
  constructor; cbn [counted_file f_name f_sense f_rows f_columns f_rhs f_ranges f_bounds].
  - now apply name_okb_ok.
  - intros k r H. cbn in H. repeat (destruct H as [H|H]; [injection H as <- <-; split; [now apply name_okb_ok|discriminate]|]). destruct H.
  - cbn. repeat constructor; cbn; intuition discriminate.
  - intros c values H. cbn in H. repeat (destruct H as [H|H]; [first [discriminate H|injection H as <- <-; now apply first_okb_ok]|]). destruct H.
  - cbn. repeat constructor; cbn; intuition discriminate.
  - cbn. repeat constructor; cbn; intuition discriminate.
  - intros g values H. cbn in H. repeat (destruct H as [H|H]; [injection H as <- <-; now apply first_okb_ok|]). destruct H.
  - cbn. repeat constructor; cbn; intuition discriminate.
  - intros g values H. cbn in H. repeat (destruct H as [H|H]; [injection H as <- <-; now apply first_okb_ok|]). destruct H.
  - cbn. repeat constructor; cbn; intuition discriminate.
  - intros t g c H. cbn in H. repeat (destruct H as [H|H]; [injection H as <- <- <-; split; [now apply name_okb_ok|intros X; exact X]|]). destruct H.
  - exists "COST". split; [now left|]. intros c H. cbn in H. repeat (destruct H as [H|H]; [first [discriminate H|now injection H as <-]|]). destruct H.
  - intros c r v H. cbn in H. repeat (destruct H as [H|H]; [injection H as <- <- <-; cbn; tauto|]). destruct H.
  - intros c r v H. cbn in H. repeat (destruct H as [H|H]; [injection H as <- <- <-; cbn; tauto|]). destruct H.
  - intros c r v H. cbn in H. repeat (destruct H as [H|H]; [injection H as <- <- <-; cbn; tauto|]). destruct H.
  - intros t g c H. cbn in H. repeat (destruct H as [H|H]; [injection H as <- <- <-; cbn; tauto|]). destruct H.
Qed.
Lemma counted_spelled : spells counted counted_file.
Proof.
  assert (T : text_of (into_lines counted) counted) by (apply text_split; vm_compute; reflexivity).
  exists (into_lines counted). split; [|exact T]. clear T.
  exists " COUNTED", [], (firstn 3 (skipn 2 (into_lines counted))), ["ROWS"], (firstn 4 (skipn 6 (into_lines counted))), (firstn 2 (skipn 10 (into_lines counted))),
    (firstn 2 (skipn 12 (into_lines counted))), (firstn 4 (skipn 14 (into_lines counted))).
  split; [apply (spaced_split " COUNTED"); reflexivity|].
  split; [exists ""; split; [intros x []|reflexivity]|].
  split; [vm_compute; repeat (constructor; [dline|]); constructor|].
  split.
  { set (ls := firstn 4 (skipn 6 _)). vm_compute in ls. subst ls. cbn [counted_file f_columns].
    constructor; [split; [now right|]; eexists; split; [constructor; [num false [1%nat] (@None (list nat))|constructor; [num false [2%nat] (@None (list nat))|constructor]]|dline]|].
    constructor; [split; [now right|]; eexists; split; [constructor; [num false [3%nat] (@None (list nat))|constructor; [num false [2%nat] (@None (list nat))|constructor]]|dline]|].
    constructor; [split; [now left|]; eexists; split; [constructor; [num true [1%nat] (@None (list nat))|constructor]|dline]|].
    constructor; [split; [now left|]; eexists; split; [constructor; [num false [1%nat] (@None (list nat))|constructor]|dline]|].
    constructor. }
  split.
  { right. set (ls := firstn 2 (skipn 10 _)). vm_compute in ls. subst ls. eexists. split; [reflexivity|]. cbn [counted_file f_rhs].
    constructor; [split; [now right|]; eexists; split; [constructor; [num false [5%nat] (@None (list nat))|constructor; [num false [7%nat] (@None (list nat))|constructor]]|dline]|].
    constructor. }
  split.
  { right. set (ls := firstn 2 (skipn 12 _)). vm_compute in ls. subst ls. eexists. split; [reflexivity|]. cbn [counted_file f_ranges].
    constructor; [split; [now left|]; eexists; split; [constructor; [num false [2%nat] (Some [5%nat])|constructor]|dline]|].
    constructor. }
  split; [|vm_compute; reflexivity].
  right. set (ls := firstn 4 (skipn 14 _)). vm_compute in ls. subst ls. eexists. split; [reflexivity|]. cbn [counted_file f_bounds].
  constructor; [eexists; split; [eexists; split; [num false [4%nat] (@None (list nat))|reflexivity]|dline]|].
  constructor; [eexists; split; [eexists; split; [num false [2%nat] (@None (list nat))|reflexivity]|dline]|].
  constructor; [eexists; split; [reflexivity|dline]|].
  constructor.
Qed.
Lemma counted_solvable : file_solvable counted_file.
Proof.
  constructor.
  - exact (file_ok_rules _ counted_ok).
  - intros c r v H. cbn in H. repeat (destruct H as [H|H]; [injection H as <- <- <-; intros Z; apply qeqb_true in Z; vm_compute in Z; discriminate Z|]). destruct H.
  - cbn. repeat constructor; cbn; intuition discriminate.
  - intros g r v H. cbn in H. destruct H as [H|[]]. injection H as <- <- <-. exists "RHS1", (q 5 1). now left.
  - intros t g g' c H. cbn in H. repeat (destruct H as [H|H]; [first [discriminate H|injection H as <- <-]|]); [|destruct H]. intros H. cbn in H. repeat (destruct H as [H|H]; [first [discriminate H|now injection H as <-]|]). destruct H.
  - intros c H. cbn in H. repeat (destruct H as [<-|H]; [|]); [..|destruct H].
    + exists 0%Qc. split; [|intros _; apply Qcle_refl]. intros t g T. cbn in T. repeat (destruct T as [T|T]; [first [discriminate T|injection T as <- <-; cbn; discriminate]|]). destruct T.
    + exists 0%Qc. split; [|intros _; apply Qcle_refl]. intros t g T. cbn in T. repeat (destruct T as [T|T]; [first [discriminate T|injection T as <- <-; cbn; discriminate]|]). destruct T.
    + exists 0%Qc. split; [|intros _; apply Qcle_refl]. intros t g T. cbn in T. repeat (destruct T as [T|T]; [first [discriminate T|injection T as <- <-; exact I]|]). destruct T.
Qed.
Definition counted_answer : answer := Solved_to (mk_solution (q 5 4) [("XONE", q 5 4); ("YTWO", q 0 1); ("ZTHREE", q 7 1)]).
Lemma counted_solved b r n : solve_text b r n 40 counted = Got (Ok counted_answer).
Proof. apply text_answer_ok. destruct b, r, n; vm_compute; reflexivity. Qed.
Lemma counted_answered : answered counted_file counted_answer.
Proof. exact (from_free _ _ Checked UseRows FirstProfitable 40 counted counted_ok counted_spelled (counted_solved _ _ _)). Qed.
Lemma counted_whole : whole_cost counted_file.
Proof.
  intros c v H. cases H; try discriminate H; injection H as <- <-; (split; [right; eexists (UpperInteger _), "BND1"; split; [inn|exact I]|]); [exists 1%Z|exists 3%Z]; reflexivity.
Qed.
(** the same program with the cut XONE + YTWO >= 2 *)
Definition cut : string := "NAME COUNTED
ROWS
 N COST
 L LIM1
 E MYEQN
 G CUT
COLUMNS
 XONE COST 1 LIM1 2
 XONE CUT 1
 YTWO COST 3 LIM1 2
 YTWO MYEQN -1 CUT 1
 ZTHREE MYEQN 1
RHS
 RHS1 LIM1 5 MYEQN 7
 RHS1 CUT 2
RANGES
 RNG1 LIM1 2.5
BOUNDS
 UI BND1 XONE 4
 UI BND1 YTWO 2
 FR BND1 ZTHREE
ENDATA
".
Definition cut_file : file := {|
  f_name := "COUNTED";
  f_sense := None;
  f_rows := [(None, "COST"); (Some KLess, "LIM1"); (Some KEqual, "MYEQN"); (Some KGreater, "CUT")];
  f_columns := [
    Entries "XONE" [("COST", q 1 1); ("LIM1", q 2 1)]; Entries "XONE" [("CUT", q 1 1)];
    Entries "YTWO" [("COST", q 3 1); ("LIM1", q 2 1)]; Entries "YTWO" [("MYEQN", q (-1) 1); ("CUT", q 1 1)];
    Entries "ZTHREE" [("MYEQN", q 1 1)]];
  f_rhs := [("RHS1", [("LIM1", q 5 1); ("MYEQN", q 7 1)]); ("RHS1", [("CUT", q 2 1)])];
  f_ranges := [("RNG1", [("LIM1", q 5 2)])];
  f_bounds := [(UpperInteger (q 4 1), "BND1", "XONE"); (UpperInteger (q 2 1), "BND1", "YTWO"); (Free, "BND1", "ZTHREE")]
|}.
Lemma cut_ok : file_ok cut_file.
Proof.
  constructor; cbn [cut_file f_name f_sense f_rows f_columns f_rhs f_ranges f_bounds].
  - now apply name_okb_ok.
  - intros k r H. cbn in H. repeat (destruct H as [H|H]; [injection H as <- <-; split; [now apply name_okb_ok|discriminate]|]). destruct H.
  - cbn. repeat constructor; cbn; intuition discriminate.
  - intros c values H. cbn in H. repeat (destruct H as [H|H]; [first [discriminate H|injection H as <- <-; now apply first_okb_ok]|]). destruct H.
  - cbn. repeat constructor; cbn; intuition discriminate.
  - cbn. repeat constructor; cbn; intuition discriminate.
  - intros g values H. cbn in H. repeat (destruct H as [H|H]; [injection H as <- <-; now apply first_okb_ok|]). destruct H.
  - cbn. repeat constructor; cbn; intuition discriminate.
  - intros g values H. cbn in H. repeat (destruct H as [H|H]; [injection H as <- <-; now apply first_okb_ok|]). destruct H.
  - cbn. repeat constructor; cbn; intuition discriminate.
  - intros t g c H. cbn in H. repeat (destruct H as [H|H]; [injection H as <- <- <-; split; [now apply name_okb_ok|intros X; exact X]|]). destruct H.
  - exists "COST". split; [now left|]. intros c H. cbn in H. repeat (destruct H as [H|H]; [first [discriminate H|now injection H as <-]|]). destruct H.
  - intros c r v H. cbn in H. repeat (destruct H as [H|H]; [injection H as <- <- <-; cbn; tauto|]). destruct H.
  - intros c r v H. cbn in H. repeat (destruct H as [H|H]; [injection H as <- <- <-; cbn; tauto|]). destruct H.
  - intros c r v H. cbn in H. repeat (destruct H as [H|H]; [injection H as <- <- <-; cbn; tauto|]). destruct H.
  - intros t g c H. cbn in H. repeat (destruct H as [H|H]; [injection H as <- <- <-; cbn; tauto|]). destruct H.
Qed.
Lemma cut_spelled : spells cut cut_file.
Proof.
  assert (T : text_of (into_lines cut) cut) by (apply text_split; vm_compute; reflexivity).
  exists (into_lines cut). split; [|exact T]. clear T.
  exists " COUNTED", [], (firstn 4 (skipn 2 (into_lines cut))), ["ROWS"], (firstn 5 (skipn 7 (into_lines cut))), (firstn 3 (skipn 12 (into_lines cut))),
    (firstn 2 (skipn 15 (into_lines cut))), (firstn 4 (skipn 17 (into_lines cut))).
  split; [apply (spaced_split " COUNTED"); reflexivity|].
  split; [exists ""; split; [intros x []|reflexivity]|].
  split; [vm_compute; repeat (constructor; [dline|]); constructor|].
  split.
  { set (ls := firstn 5 (skipn 7 _)). vm_compute in ls. subst ls. cbn [cut_file f_columns].
    constructor; [split; [now right|]; eexists; split; [constructor; [num false [1%nat] (@None (list nat))|constructor; [num false [2%nat] (@None (list nat))|constructor]]|dline]|].
    constructor; [split; [now left|]; eexists; split; [constructor; [num false [1%nat] (@None (list nat))|constructor]|dline]|].
    constructor; [split; [now right|]; eexists; split; [constructor; [num false [3%nat] (@None (list nat))|constructor; [num false [2%nat] (@None (list nat))|constructor]]|dline]|].
    constructor; [split; [now right|]; eexists; split; [constructor; [num true [1%nat] (@None (list nat))|constructor; [num false [1%nat] (@None (list nat))|constructor]]|dline]|].
    constructor; [split; [now left|]; eexists; split; [constructor; [num false [1%nat] (@None (list nat))|constructor]|dline]|].
    constructor. }
  split.
  { right. set (ls := firstn 3 (skipn 12 _)). vm_compute in ls. subst ls. eexists. split; [reflexivity|]. cbn [cut_file f_rhs].
    constructor; [split; [now right|]; eexists; split; [constructor; [num false [5%nat] (@None (list nat))|constructor; [num false [7%nat] (@None (list nat))|constructor]]|dline]|].
    constructor; [split; [now left|]; eexists; split; [constructor; [num false [2%nat] (@None (list nat))|constructor]|dline]|].
    constructor. }
  split.
  { right. set (ls := firstn 2 (skipn 15 _)). vm_compute in ls. subst ls. eexists. split; [reflexivity|]. cbn [cut_file f_ranges].
    constructor; [split; [now left|]; eexists; split; [constructor; [num false [2%nat] (Some [5%nat])|constructor]|dline]|].
    constructor. }
  split; [|vm_compute; reflexivity].
  right. set (ls := firstn 4 (skipn 17 _)). vm_compute in ls. subst ls. eexists. split; [reflexivity|]. cbn [cut_file f_bounds].
  constructor; [eexists; split; [eexists; split; [num false [4%nat] (@None (list nat))|reflexivity]|dline]|].
  constructor; [eexists; split; [eexists; split; [num false [2%nat] (@None (list nat))|reflexivity]|dline]|].
  constructor; [eexists; split; [reflexivity|dline]|].
  constructor.
Qed.
Lemma cut_solvable : file_solvable cut_file.
Proof.
  constructor.
  - exact (file_ok_rules _ cut_ok).
  - intros c r v H. cbn in H. repeat (destruct H as [H|H]; [injection H as <- <- <-; intros Z; apply qeqb_true in Z; vm_compute in Z; discriminate Z|]). destruct H.
  - cbn. repeat constructor; cbn; intuition discriminate.
  - intros g r v H. cbn in H. destruct H as [H|[]]. injection H as <- <- <-. exists "RHS1", (q 5 1). now left.
  - intros t g g' c H. cbn in H. repeat (destruct H as [H|H]; [first [discriminate H|injection H as <- <-]|]); [|destruct H]. intros H. cbn in H. repeat (destruct H as [H|H]; [first [discriminate H|now injection H as <-]|]). destruct H.
  - intros c H. cbn in H. repeat (destruct H as [<-|H]; [|]); [..|destruct H].
    + exists 0%Qc. split; [|intros _; apply Qcle_refl]. intros t g T. cbn in T. repeat (destruct T as [T|T]; [first [discriminate T|injection T as <- <-; cbn; discriminate]|]). destruct T.
    + exists 0%Qc. split; [|intros _; apply Qcle_refl]. intros t g T. cbn in T. repeat (destruct T as [T|T]; [first [discriminate T|injection T as <- <-; cbn; discriminate]|]). destruct T.
    + exists 0%Qc. split; [|intros _; apply Qcle_refl]. intros t g T. cbn in T. repeat (destruct T as [T|T]; [first [discriminate T|injection T as <- <-; exact I]|]). destruct T.
Qed.
Definition cut_answer : answer := Solved_to (mk_solution (q 2 1) [("XONE", q 2 1); ("YTWO", q 0 1); ("ZTHREE", q 7 1)]).
Lemma cut_solved b r n : solve_text b r n 40 cut = Got (Ok cut_answer).
Proof. apply text_answer_ok. destruct b, r, n; vm_compute; reflexivity. Qed.
Lemma cut_answered : answered cut_file cut_answer.
Proof. exact (from_free _ _ Checked UseRows FirstProfitable 40 cut cut_ok cut_spelled (cut_solved _ _ _)). Qed.
Lemma counted_integers c v : In (c, v) [("XONE", q 1 1); ("YTWO", q 1 1)] -> integer_column counted_file c /\ whole_number v.
Proof. intros H. cases H; injection H as <- <-; (split; [right; eexists (UpperInteger _), "BND1"; split; [inn|exact I]|exists 1%Z; reflexivity]). Qed.
Lemma counted_rounds : rounds_to KGreater [("XONE", q 1 1); ("YTWO", q 1 1)] 2 counted_file.
Proof.
  intros x [A _]. assert (B : frhs counted_file "LIM1" (q 5 1)) by (left; exists "RHS1"; inn). assert (R : frange counted_file "LIM1" (q 5 2)) by (exists "RNG1"; inn).
  assert (L : In (Some KLess, "LIM1") (f_rows counted_file)) by inn. destruct (proj2 (A KLess "LIM1" L (q 5 1) B) (q 5 2) R) as [H _]. revert H.
  unfold weighed, frow_value, total. cbn -[q Qcplus Qcmult Qcminus Qcle Qclt Q2Qc]. generalize (x "XONE") (x "YTWO") (x "ZTHREE"). intros a b c H.
  assert (K : (1 + 1 < q 5 1 - qabs (q 5 2))%Qc) by (vm_compute; reflexivity). generalize dependent (q 5 1 - qabs (q 5 2))%Qc. intros l H K.
  replace (q 2 1) with (1 + 1)%Qc in H by (apply qeqb_true; vm_compute; reflexivity). replace (Q2Qc (inject_Z 2) - 1)%Qc with 1%Qc by (apply qeqb_true; vm_compute; reflexivity).
  change (q 1 1) with 1%Qc. change (Q2Qc 0) with 0%Qc in *. qlra.
Qed.
Lemma counted_cut : with_row KGreater "CUT" [("XONE", q 1 1); ("YTWO", q 1 1)] (q 2 1) counted_file cut_file.
Proof.
  constructor.
  - intros H. cases H; discriminate H.
  - reflexivity.
  - intros k n. split.
    + intros H. cases H; injection H as <- <-; first [left; split; reflexivity|right; inn].
    + intros [[-> ->]|H]; [inn|]. cases H; injection H as <- <-; inn.
  - intros c i. split; intros H; cases H; injection H as <- <-; inn.
  - apply (Permutation_cons_app (firstn 2 (coefficients cut_file)) (skipn 3 (coefficients cut_file))).
    exact (Permutation_middle (firstn 5 (coefficients counted_file)) (skipn 5 (coefficients counted_file)) ("YTWO", "CUT", q 1 1)).
  - left. exists "RHS1". inn.
  - intros n b N. unfold frhs. assert (E : forall g b', In (g, n, b') (vector_values (f_rhs cut_file)) <-> In (g, n, b') (vector_values (f_rhs counted_file))).
    { intros g b'. split; intros H; cases H; try discriminate H; injection H as <- <- <-; first [now elim N|inn]. }
    split; (intros [[g H]|[Z H]]; [left; exists g; now apply E|right; split; [exact Z|intros g b' I; apply (H g b'); now apply E]]).
  - intros n w. split; intros [g H]; exists g; exact H.
  - intros t g c. reflexivity.
Qed.
Lemma mixed_integer c : integer_column mixed_file c <-> c = "XONE".
Proof.
  split.
  - intros [H|(t & g & H & M)]; cases H; try discriminate H; [..]; injection H as <- <- <-; first [reflexivity|destruct M].
  - intros ->. right. exists (UpperInteger (q 4 1)), "BND1". split; [inn|exact I].
Qed.
Lemma mixed_down : branch_down 3 "BND2" "XONE" mixed_file = down_file.
Proof. reflexivity. Qed.
Lemma mixed_up : branch_up 3 "BND2" "XONE" mixed_file = up_file.
Proof. reflexivity. Qed.
Lemma mixed_branches : branches mixed_file [down_file; up_file].
Proof.
  rewrite <- mixed_down, <- mixed_up. apply branches_split; [now apply mixed_integer|inn|left; discriminate].
Qed.
