(** * Other formulations of the programs of ExBeside.v and ExOrder.v *)
From Verif Require Import SpecReform OrderP UnitsP ReformP TextP FileP ExParse Examples ExGeneral ExFile ExTextPresolve ExOrder ExUnits ExBeside.
Local Open Scope string_scope.
Local Open Scope list_scope.

(** an equation with a new column instead of the inequality *)
Definition evened : string := "NAME EVENED
ROWS
 N COST
 E NEED
COLUMNS
 UFOUR COST 2 NEED 1
 VFIVE COST 3 NEED 2
 SURPLUS NEED -1
RHS
 RHS1 NEED 4
BOUNDS
 UP BND1 UFOUR 3
ENDATA
".
Definition evened_file : file := {|
  f_name := "EVENED";
  f_sense := None;
  f_rows := [(None, "COST"); (Some KEqual, "NEED")];
  f_columns := [Entries "UFOUR" [("COST", q 2 1); ("NEED", q 1 1)]; Entries "VFIVE" [("COST", q 3 1); ("NEED", q 2 1)]; Entries "SURPLUS" [("NEED", q (-1) 1)]];
  f_rhs := [("RHS1", [("NEED", q 4 1)])];
  f_ranges := [];
  f_bounds := [(UpperContinuous (q 3 1), "BND1", "UFOUR")]
|}.
Lemma evened_ok : file_ok evened_file.
Proof.
  constructor; cbn [evened_file f_name f_sense f_rows f_columns f_rhs f_ranges f_bounds].
  - now apply name_okb_ok.
  - intros k r H. cbn in H. repeat (destruct H as [H|H]; [injection H as <- <-; split; [now apply name_okb_ok|discriminate]|]). destruct H.
  - cbn. repeat constructor; cbn; intuition discriminate.
  - intros c values H. cbn in H. repeat (destruct H as [H|H]; [first [discriminate H|injection H as <- <-; now apply first_okb_ok]|]). destruct H.
  - cbn. repeat constructor; cbn; intuition discriminate.
  - cbn. repeat constructor; cbn; intuition discriminate.
  - intros g values H. cbn in H. repeat (destruct H as [H|H]; [injection H as <- <-; now apply first_okb_ok|]). destruct H.
  - cbn. repeat constructor; cbn; intuition discriminate.
  - intros g values H. cbn in H. repeat (destruct H as [H|H]; [injection H as <- <-; now apply first_okb_ok|]). destruct H.
  - cbn. repeat constructor; cbn; intuition discriminate.
  - intros t g c H. cbn in H. repeat (destruct H as [H|H]; [injection H as <- <- <-; split; [now apply name_okb_ok|intros X; exact X]|]). destruct H.
  - exists "COST". split; [now left|]. intros c H. cbn in H. repeat (destruct H as [H|H]; [first [discriminate H|now injection H as <-]|]). destruct H.
  - intros c r v H. cbn in H. repeat (destruct H as [H|H]; [injection H as <- <- <-; cbn; tauto|]). destruct H.
  - intros c r v H. cbn in H. repeat (destruct H as [H|H]; [injection H as <- <- <-; cbn; tauto|]). destruct H.
  - intros c r v H. cbn in H. repeat (destruct H as [H|H]; [injection H as <- <- <-; cbn; tauto|]). destruct H.
  - intros t g c H. cbn in H. repeat (destruct H as [H|H]; [injection H as <- <- <-; cbn; tauto|]). destruct H.
Qed.
Lemma evened_spelled : spells evened evened_file.
Proof.
  assert (T : text_of (into_lines evened) evened) by (apply text_split; vm_compute; reflexivity).
  exists (into_lines evened). split; [|exact T]. clear T.
  exists " EVENED", [], (firstn 2 (skipn 2 (into_lines evened))), ["ROWS"], (firstn 3 (skipn 5 (into_lines evened))), (firstn 2 (skipn 8 (into_lines evened))),
    [], (firstn 2 (skipn 10 (into_lines evened))).
  split; [apply (spaced_split " EVENED"); reflexivity|].
  split; [exists ""; split; [intros x []|reflexivity]|].
  split; [vm_compute; repeat (constructor; [dline|]); constructor|].
  split.
  { set (ls := firstn 3 (skipn 5 _)). vm_compute in ls. subst ls. cbn [evened_file f_columns].
    constructor; [split; [now right|]; eexists; split; [constructor; [num false [2%nat] (@None (list nat))|constructor; [num false [1%nat] (@None (list nat))|constructor]]|dline]|].
    constructor; [split; [now right|]; eexists; split; [constructor; [num false [3%nat] (@None (list nat))|constructor; [num false [2%nat] (@None (list nat))|constructor]]|dline]|].
    constructor; [split; [now left|]; eexists; split; [constructor; [num true [1%nat] (@None (list nat))|constructor]|dline]|].
    constructor. }
  split.
  { right. set (ls := firstn 2 (skipn 8 _)). vm_compute in ls. subst ls. eexists. split; [reflexivity|]. cbn [evened_file f_rhs].
    constructor; [split; [now left|]; eexists; split; [constructor; [num false [4%nat] (@None (list nat))|constructor]|dline]|].
    constructor. }
  split.
  { now left. }
  split; [|vm_compute; reflexivity].
  right. set (ls := firstn 2 (skipn 10 _)). vm_compute in ls. subst ls. eexists. split; [reflexivity|]. cbn [evened_file f_bounds].
  constructor; [eexists; split; [eexists; split; [num false [3%nat] (@None (list nat))|reflexivity]|dline]|].
  constructor.
Qed.
Lemma evened_solvable : file_solvable evened_file.
Proof.
  constructor.
  - exact (file_ok_rules _ evened_ok).
  - intros c r v H. cbn in H. repeat (destruct H as [H|H]; [injection H as <- <- <-; intros Z; apply qeqb_true in Z; vm_compute in Z; discriminate Z|]). destruct H.
  - cbn. repeat constructor; cbn; intuition discriminate.
  - intros g r v H. cbn in H. destruct H.
  - intros t g g' c H. cbn in H. repeat (destruct H as [H|H]; [discriminate H|]). destruct H.
  - intros c H. cbn in H. repeat (destruct H as [<-|H]; [|]); [..|destruct H].
    + exists 0%Qc. split; [|intros _; apply Qcle_refl]. intros t g T. cbn in T. repeat (destruct T as [T|T]; [first [discriminate T|injection T as <- <-; cbn; discriminate]|]). destruct T.
    + exists 0%Qc. split; [|intros _; apply Qcle_refl]. intros t g T. cbn in T. repeat (destruct T as [T|T]; [first [discriminate T|injection T as <- <-; cbn; discriminate]|]). destruct T.
    + exists 0%Qc. split; [|intros _; apply Qcle_refl]. intros t g T. cbn in T. repeat (destruct T as [T|T]; [first [discriminate T|injection T as <- <-; cbn; discriminate]|]). destruct T.
Qed.
Definition evened_answer : answer := Solved_to (mk_solution (q 6 1) [("UFOUR", q 0 1); ("VFIVE", q 2 1); ("SURPLUS", q 0 1)]).
Lemma evened_solved b r n : solve_text b r n 40 evened = Got (Ok evened_answer).
Proof. apply text_answer_ok. destruct b, r, n; vm_compute; reflexivity. Qed.
Lemma evened_answered : answered evened_file evened_answer.
Proof. exact (from_free _ _ Checked UseRows FirstProfitable 40 evened evened_ok evened_spelled (evened_solved _ _ _)). Qed.
Lemma second_slack : with_slack KGreater "NEED" "SURPLUS" second_file evened_file.
Proof.
  constructor; try reflexivity.
  - discriminate.
  - inn.
  - intros w [g []].
  - intros H. cases H; discriminate H.
  - intros c. split; [intros H; cases H; subst; first [left; reflexivity|right; inn]|]. intros [->|H]; [inn|cases H; subst; inn].
  - assert (E : (- (1) = q (-1) 1)%Qc) by (apply qeqb_true; vm_compute; reflexivity). rewrite E. exact (Permutation_cons_append (coefficients second_file) ("SURPLUS", "NEED", q (-1) 1)).
Qed.
(** two columns instead of the free one *)
Definition parted : string := "NAME PARTED
ROWS
 N COST
 L LIM1
 E MYEQN
COLUMNS
 XONE COST 1 LIM1 1
 YTWO COST 4 LIM1 1
 YTWO MYEQN -1
 ZPLUS COST 0.5 MYEQN 1
 ZMINUS COST -0.5 MYEQN -1
RHS
 RHS1 LIM1 5 MYEQN 7
RANGES
 RNG1 LIM1 2.5
BOUNDS
 UP BND1 XONE 4
 LO BND1 YTWO -1
 UP BND1 YTWO 2
ENDATA
".
Definition parted_file : file := {|
  f_name := "PARTED";
  f_sense := None;
  f_rows := [(None, "COST"); (Some KLess, "LIM1"); (Some KEqual, "MYEQN")];
  f_columns := [
    Entries "XONE" [("COST", q 1 1); ("LIM1", q 1 1)];
    Entries "YTWO" [("COST", q 4 1); ("LIM1", q 1 1)]; Entries "YTWO" [("MYEQN", q (-1) 1)];
    Entries "ZPLUS" [("COST", q 1 2); ("MYEQN", q 1 1)]; Entries "ZMINUS" [("COST", q (-1) 2); ("MYEQN", q (-1) 1)]];
  f_rhs := [("RHS1", [("LIM1", q 5 1); ("MYEQN", q 7 1)])];
  f_ranges := [("RNG1", [("LIM1", q 5 2)])];
  f_bounds := [(UpperContinuous (q 4 1), "BND1", "XONE"); (LowerContinuous (q (-1) 1), "BND1", "YTWO"); (UpperContinuous (q 2 1), "BND1", "YTWO")]
|}.
Lemma parted_ok : file_ok parted_file.
Proof.
  constructor; cbn [parted_file f_name f_sense f_rows f_columns f_rhs f_ranges f_bounds].
  - now apply name_okb_ok.
  - intros k r H. cbn in H. repeat (destruct H as [H|H]; [injection H as <- <-; split; [now apply name_okb_ok|discriminate]|]). destruct H.
  - cbn. repeat constructor; cbn; intuition discriminate.
  - intros c values H. cbn in H. repeat (destruct H as [H|H]; [first [discriminate H|injection H as <- <-; now apply first_okb_ok]|]). destruct H.
  - cbn. repeat constructor; cbn; intuition discriminate.
  - cbn. repeat constructor; cbn; intuition discriminate.
  - intros g values H. cbn in H. repeat (destruct H as [H|H]; [injection H as <- <-; now apply first_okb_ok|]). destruct H.
  - cbn. repeat constructor; cbn; intuition discriminate.
  - intros g values H. cbn in H. repeat (destruct H as [H|H]; [injection H as <- <-; now apply first_okb_ok|]). destruct H.
  - cbn. repeat constructor; cbn; intuition discriminate.
  - intros t g c H. cbn in H. repeat (destruct H as [H|H]; [injection H as <- <- <-; split; [now apply name_okb_ok|intros X; exact X]|]). destruct H.
  - exists "COST". split; [now left|]. intros c H. cbn in H. repeat (destruct H as [H|H]; [first [discriminate H|now injection H as <-]|]). destruct H.
  - intros c r v H. cbn in H. repeat (destruct H as [H|H]; [injection H as <- <- <-; cbn; tauto|]). destruct H.
  - intros c r v H. cbn in H. repeat (destruct H as [H|H]; [injection H as <- <- <-; cbn; tauto|]). destruct H.
  - intros c r v H. cbn in H. repeat (destruct H as [H|H]; [injection H as <- <- <-; cbn; tauto|]). destruct H.
  - intros t g c H. cbn in H. repeat (destruct H as [H|H]; [injection H as <- <- <-; cbn; tauto|]). destruct H.
Qed.
Lemma parted_spelled : spells parted parted_file.
Proof.
  assert (T : text_of (into_lines parted) parted) by (apply text_split; vm_compute; reflexivity).
  exists (into_lines parted). split; [|exact T]. clear T.
  exists " PARTED", [], (firstn 3 (skipn 2 (into_lines parted))), ["ROWS"], (firstn 5 (skipn 6 (into_lines parted))), (firstn 2 (skipn 11 (into_lines parted))),
    (firstn 2 (skipn 13 (into_lines parted))), (firstn 4 (skipn 15 (into_lines parted))).
  split; [apply (spaced_split " PARTED"); reflexivity|].
  split; [exists ""; split; [intros x []|reflexivity]|].
  split; [vm_compute; repeat (constructor; [dline|]); constructor|].
  split.
  { set (ls := firstn 5 (skipn 6 _)). vm_compute in ls. subst ls. cbn [parted_file f_columns].
    constructor; [split; [now right|]; eexists; split; [constructor; [num false [1%nat] (@None (list nat))|constructor; [num false [1%nat] (@None (list nat))|constructor]]|dline]|].
    constructor; [split; [now right|]; eexists; split; [constructor; [num false [4%nat] (@None (list nat))|constructor; [num false [1%nat] (@None (list nat))|constructor]]|dline]|].
    constructor; [split; [now left|]; eexists; split; [constructor; [num true [1%nat] (@None (list nat))|constructor]|dline]|].
    constructor; [split; [now right|]; eexists; split; [constructor; [num false [0%nat] (Some [5%nat])|constructor; [num false [1%nat] (@None (list nat))|constructor]]|dline]|].
    constructor; [split; [now right|]; eexists; split; [constructor; [num true [0%nat] (Some [5%nat])|constructor; [num true [1%nat] (@None (list nat))|constructor]]|dline]|].
    constructor. }
  split.
  { right. set (ls := firstn 2 (skipn 11 _)). vm_compute in ls. subst ls. eexists. split; [reflexivity|]. cbn [parted_file f_rhs].
    constructor; [split; [now right|]; eexists; split; [constructor; [num false [5%nat] (@None (list nat))|constructor; [num false [7%nat] (@None (list nat))|constructor]]|dline]|].
    constructor. }
  split.
  { right. set (ls := firstn 2 (skipn 13 _)). vm_compute in ls. subst ls. eexists. split; [reflexivity|]. cbn [parted_file f_ranges].
    constructor; [split; [now left|]; eexists; split; [constructor; [num false [2%nat] (Some [5%nat])|constructor]|dline]|].
    constructor. }
  split; [|vm_compute; reflexivity].
  right. set (ls := firstn 4 (skipn 15 _)). vm_compute in ls. subst ls. eexists. split; [reflexivity|]. cbn [parted_file f_bounds].
  constructor; [eexists; split; [eexists; split; [num false [4%nat] (@None (list nat))|reflexivity]|dline]|].
  constructor; [eexists; split; [eexists; split; [num true [1%nat] (@None (list nat))|reflexivity]|dline]|].
  constructor; [eexists; split; [eexists; split; [num false [2%nat] (@None (list nat))|reflexivity]|dline]|].
  constructor.
Qed.
Lemma parted_solvable : file_solvable parted_file.
Proof.
  constructor.
  - exact (file_ok_rules _ parted_ok).
  - intros c r v H. cbn in H. repeat (destruct H as [H|H]; [injection H as <- <- <-; intros Z; apply qeqb_true in Z; vm_compute in Z; discriminate Z|]). destruct H.
  - cbn. repeat constructor; cbn; intuition discriminate.
  - intros g r v H. cbn in H. destruct H as [H|[]]. injection H as <- <- <-. exists "RHS1", (q 5 1). now left.
  - intros t g g' c H. cbn in H. repeat (destruct H as [H|H]; [discriminate H|]). destruct H.
  - intros c H. cbn in H. repeat (destruct H as [<-|H]; [|]); [..|destruct H].
    + exists 0%Qc. split; [|intros _; apply Qcle_refl]. intros t g T. cbn in T. repeat (destruct T as [T|T]; [first [discriminate T|injection T as <- <-; cbn; discriminate]|]). destruct T.
    + exists 0%Qc. split; [|intros _; apply Qcle_refl]. intros t g T. cbn in T. repeat (destruct T as [T|T]; [first [discriminate T|injection T as <- <-; cbn; discriminate]|]). destruct T.
    + exists 0%Qc. split; [|intros _; apply Qcle_refl]. intros t g T. cbn in T. repeat (destruct T as [T|T]; [first [discriminate T|injection T as <- <-; cbn; discriminate]|]). destruct T.
    + exists 0%Qc. split; [|intros _; apply Qcle_refl]. intros t g T. cbn in T. repeat (destruct T as [T|T]; [first [discriminate T|injection T as <- <-; cbn; discriminate]|]). destruct T.
Qed.
Definition parted_answer : answer := Solved_to (mk_solution (q 5 2) [("XONE", q 7 2); ("YTWO", q (-1) 1); ("ZPLUS", q 6 1); ("ZMINUS", q 0 1)]).
Lemma parted_solved b r n : solve_text b r n 40 parted = Got (Ok parted_answer).
Proof. apply text_answer_ok. destruct b, r, n; vm_compute; reflexivity. Qed.
Lemma parted_answered : answered parted_file parted_answer.
Proof. exact (from_free _ _ Checked UseRows FirstProfitable 40 parted parted_ok parted_spelled (parted_solved _ _ _)). Qed.
Lemma looser_parts : with_parts "ZTHREE" "ZPLUS" "ZMINUS" looser_file parted_file.
Proof.
  constructor; try reflexivity.
  - inn.
  - exists "BND1". inn.
  - intros H. cases H; discriminate H.
  - intros H. cases H; discriminate H.
  - discriminate.
  - intros c. split.
    + intros H. cases H; subst; first [left; reflexivity|right; left; reflexivity|right; right; split; [discriminate|inn]].
    + intros [->|[->|[N H]]]; [inn|inn|]. cases H; subst; first [now elim N|inn].
  - assert (E1 : (- q 1 1 = q (-1) 1)%Qc) by (apply qeqb_true; vm_compute; reflexivity). assert (E2 : (- q 1 2 = q (-1) 2)%Qc) by (apply qeqb_true; vm_compute; reflexivity).
    change (Permutation (firstn 5 (coefficients looser_file) ++ [("ZPLUS", "COST", q 1 2); ("ZMINUS", "COST", (- q 1 2)%Qc); ("ZPLUS", "MYEQN", q 1 1); ("ZMINUS", "MYEQN", (- q 1 1)%Qc)])
      (firstn 5 (coefficients looser_file) ++ [("ZPLUS", "COST", q 1 2); ("ZPLUS", "MYEQN", q 1 1); ("ZMINUS", "COST", q (-1) 2); ("ZMINUS", "MYEQN", q (-1) 1)])).
    rewrite E1, E2. apply Permutation_app_head, perm_skip, Permutation.perm_swap.
  - intros t g c. split.
    + intros H. cases H; try discriminate H; injection H as <- <- <-; (split; [discriminate|inn]).
    + intros [N H]. cases H; try discriminate H; injection H as <- <- <-; first [now elim N|inn].
Qed.
(** two inequalities instead of the one with a range *)
Definition paired : string := "NAME PAIRED
ROWS
 N COST
 L LIM1
 E MYEQN
 G LEAST
COLUMNS
 XONE COST 1 LIM1 1
 XONE LEAST 1
 YTWO COST 4 LIM1 1
 YTWO MYEQN -1 LEAST 1
 ZTHREE COST 0.5 MYEQN 1
RHS
 RHS1 LIM1 5 MYEQN 7
 RHS1 LEAST 2.5
BOUNDS
 UP BND1 XONE 4
 LO BND1 YTWO -1
 UP BND1 YTWO 2
 FR BND1 ZTHREE
ENDATA
".
Definition paired_file : file := {|
  f_name := "PAIRED";
  f_sense := None;
  f_rows := [(None, "COST"); (Some KLess, "LIM1"); (Some KEqual, "MYEQN"); (Some KGreater, "LEAST")];
  f_columns := [
    Entries "XONE" [("COST", q 1 1); ("LIM1", q 1 1)]; Entries "XONE" [("LEAST", q 1 1)];
    Entries "YTWO" [("COST", q 4 1); ("LIM1", q 1 1)]; Entries "YTWO" [("MYEQN", q (-1) 1); ("LEAST", q 1 1)];
    Entries "ZTHREE" [("COST", q 1 2); ("MYEQN", q 1 1)]];
  f_rhs := [("RHS1", [("LIM1", q 5 1); ("MYEQN", q 7 1)]); ("RHS1", [("LEAST", q 5 2)])];
  f_ranges := [];
  f_bounds := [(UpperContinuous (q 4 1), "BND1", "XONE"); (LowerContinuous (q (-1) 1), "BND1", "YTWO"); (UpperContinuous (q 2 1), "BND1", "YTWO"); (Free, "BND1", "ZTHREE")]
|}.
Lemma paired_ok : file_ok paired_file.
Proof.
  constructor; cbn [paired_file f_name f_sense f_rows f_columns f_rhs f_ranges f_bounds].
  - now apply name_okb_ok.
  - intros k r H. cbn in H. repeat (destruct H as [H|H]; [injection H as <- <-; split; [now apply name_okb_ok|discriminate]|]). destruct H.
  - cbn. repeat constructor; cbn; intuition discriminate.
  - intros c values H. cbn in H. repeat (destruct H as [H|H]; [first [discriminate H|injection H as <- <-; now apply first_okb_ok]|]). destruct H.
  - cbn. repeat constructor; cbn; intuition discriminate.
  - cbn. repeat constructor; cbn; intuition discriminate.
  - intros g values H. cbn in H. repeat (destruct H as [H|H]; [injection H as <- <-; now apply first_okb_ok|]). destruct H.
  - cbn. repeat constructor; cbn; intuition discriminate.
  - intros g values H. cbn in H. repeat (destruct H as [H|H]; [injection H as <- <-; now apply first_okb_ok|]). destruct H.
  - cbn. repeat constructor; cbn; intuition discriminate.
  - intros t g c H. cbn in H. repeat (destruct H as [H|H]; [injection H as <- <- <-; split; [now apply name_okb_ok|intros X; exact X]|]). destruct H.
  - exists "COST". split; [now left|]. intros c H. cbn in H. repeat (destruct H as [H|H]; [first [discriminate H|now injection H as <-]|]). destruct H.
  - intros c r v H. cbn in H. repeat (destruct H as [H|H]; [injection H as <- <- <-; cbn; tauto|]). destruct H.
  - intros c r v H. cbn in H. repeat (destruct H as [H|H]; [injection H as <- <- <-; cbn; tauto|]). destruct H.
  - intros c r v H. cbn in H. repeat (destruct H as [H|H]; [injection H as <- <- <-; cbn; tauto|]). destruct H.
  - intros t g c H. cbn in H. repeat (destruct H as [H|H]; [injection H as <- <- <-; cbn; tauto|]). destruct H.
Qed.
Lemma paired_spelled : spells paired paired_file.
Proof.
  assert (T : text_of (into_lines paired) paired) by (apply text_split; vm_compute; reflexivity).
  exists (into_lines paired). split; [|exact T]. clear T.
  exists " PAIRED", [], (firstn 4 (skipn 2 (into_lines paired))), ["ROWS"], (firstn 5 (skipn 7 (into_lines paired))), (firstn 3 (skipn 12 (into_lines paired))),
    [], (firstn 5 (skipn 15 (into_lines paired))).
  split; [apply (spaced_split " PAIRED"); reflexivity|].
  split; [exists ""; split; [intros x []|reflexivity]|].
  split; [vm_compute; repeat (constructor; [dline|]); constructor|].
  split.
  { set (ls := firstn 5 (skipn 7 _)). vm_compute in ls. subst ls. cbn [paired_file f_columns].
    constructor; [split; [now right|]; eexists; split; [constructor; [num false [1%nat] (@None (list nat))|constructor; [num false [1%nat] (@None (list nat))|constructor]]|dline]|].
    constructor; [split; [now left|]; eexists; split; [constructor; [num false [1%nat] (@None (list nat))|constructor]|dline]|].
    constructor; [split; [now right|]; eexists; split; [constructor; [num false [4%nat] (@None (list nat))|constructor; [num false [1%nat] (@None (list nat))|constructor]]|dline]|].
    constructor; [split; [now right|]; eexists; split; [constructor; [num true [1%nat] (@None (list nat))|constructor; [num false [1%nat] (@None (list nat))|constructor]]|dline]|].
    constructor; [split; [now right|]; eexists; split; [constructor; [num false [0%nat] (Some [5%nat])|constructor; [num false [1%nat] (@None (list nat))|constructor]]|dline]|].
    constructor. }
  split.
  { right. set (ls := firstn 3 (skipn 12 _)). vm_compute in ls. subst ls. eexists. split; [reflexivity|]. cbn [paired_file f_rhs].
    constructor; [split; [now right|]; eexists; split; [constructor; [num false [5%nat] (@None (list nat))|constructor; [num false [7%nat] (@None (list nat))|constructor]]|dline]|].
    constructor; [split; [now left|]; eexists; split; [constructor; [num false [2%nat] (Some [5%nat])|constructor]|dline]|].
    constructor. }
  split.
  { now left. }
  split; [|vm_compute; reflexivity].
  right. set (ls := firstn 5 (skipn 15 _)). vm_compute in ls. subst ls. eexists. split; [reflexivity|]. cbn [paired_file f_bounds].
  constructor; [eexists; split; [eexists; split; [num false [4%nat] (@None (list nat))|reflexivity]|dline]|].
  constructor; [eexists; split; [eexists; split; [num true [1%nat] (@None (list nat))|reflexivity]|dline]|].
  constructor; [eexists; split; [eexists; split; [num false [2%nat] (@None (list nat))|reflexivity]|dline]|].
  constructor; [eexists; split; [reflexivity|dline]|].
  constructor.
Qed.
Lemma paired_solvable : file_solvable paired_file.
Proof.
  constructor.
  - exact (file_ok_rules _ paired_ok).
  - intros c r v H. cbn in H. repeat (destruct H as [H|H]; [injection H as <- <- <-; intros Z; apply qeqb_true in Z; vm_compute in Z; discriminate Z|]). destruct H.
  - cbn. repeat constructor; cbn; intuition discriminate.
  - intros g r v H. cbn in H. destruct H.
  - intros t g g' c H. cbn in H. repeat (destruct H as [H|H]; [first [discriminate H|injection H as <- <-]|]); [|destruct H]. intros H. cbn in H. repeat (destruct H as [H|H]; [first [discriminate H|now injection H as <-]|]). destruct H.
  - intros c H. cbn in H. repeat (destruct H as [<-|H]; [|]); [..|destruct H].
    + exists 0%Qc. split; [|intros _; apply Qcle_refl]. intros t g T. cbn in T. repeat (destruct T as [T|T]; [first [discriminate T|injection T as <- <-; cbn; discriminate]|]). destruct T.
    + exists 0%Qc. split; [|intros _; apply Qcle_refl]. intros t g T. cbn in T. repeat (destruct T as [T|T]; [first [discriminate T|injection T as <- <-; cbn; discriminate]|]). destruct T.
    + exists 0%Qc. split; [|intros _; apply Qcle_refl]. intros t g T. cbn in T. repeat (destruct T as [T|T]; [first [discriminate T|injection T as <- <-; exact I]|]). destruct T.
Qed.
Definition paired_answer : answer := Solved_to (mk_solution (q 5 2) [("XONE", q 7 2); ("YTWO", q (-1) 1); ("ZTHREE", q 6 1)]).
Lemma paired_solved b r n : solve_text b r n 40 paired = Got (Ok paired_answer).
Proof. apply text_answer_ok. destruct b, r, n; vm_compute; reflexivity. Qed.
Lemma paired_answered : answered paired_file paired_answer.
Proof. exact (from_free _ _ Checked UseRows FirstProfitable 40 paired paired_ok paired_spelled (paired_solved _ _ _)). Qed.
Lemma put_between {A : Type} (l1 l2 l3 : list A) a b : Permutation ((l1 ++ l2 ++ l3) ++ [a; b]) (l1 ++ a :: l2 ++ b :: l3).
Proof.
  rewrite <- !app_assoc. apply Permutation_app_head. symmetry. transitivity (l2 ++ a :: b :: l3); [apply Permutation_middle|]. apply Permutation_app_head. exact (Permutation_app_comm [a; b] l3).
Qed.
Lemma looser_two_rows : with_two_rows KLess "LIM1" "LEAST" (q 5 2) (q 5 1) looser_file paired_file.
Proof.
  constructor.
  - inn.
  - assert (E : (q 5 1 - qabs (q 5 2) = q 5 2)%Qc) by (apply qeqb_true; vm_compute; reflexivity). intros v. split.
    + intros H. destruct (H (q 5 1)) as [_ R]; [left; exists "RHS1"; inn|]. specialize (R (q 5 2)). cbn [range_holds] in R. rewrite E in R. apply R. exists "RNG1". inn.
    + intros H b [[g B]|[_ B]]; [|elim (B "RHS1" (q 5 1)); inn]. cases B; try discriminate B. injection B as <- <-. split; [intros N; elim (N (q 5 2)); exists "RNG1"; inn|].
      intros w [g' G]. cases G; try discriminate G. injection G as <- <-. cbn [range_holds]. now rewrite E.
  - intros H. cases H; discriminate H.
  - reflexivity.
  - intros k n. split.
    + intros H. cases H; injection H as <- <-; first [left; split; reflexivity|right; left; split; reflexivity|right; right; split; [discriminate|inn]].
    + intros [[-> ->]|[[-> ->]|[N H]]]; [inn|inn|]. cases H; injection H as <- <-; first [now elim N|inn].
  - intros c. split; intros H; cases H; subst; inn.
  - exact (put_between (firstn 2 (coefficients looser_file)) (firstn 3 (skipn 2 (coefficients looser_file))) (skipn 5 (coefficients looser_file)) ("XONE", "LEAST", q 1 1) ("YTWO", "LEAST", q 1 1)).
  - left. exists "RHS1". inn.
  - left. exists "RHS1". inn.
  - intros n b N1 N2. unfold frhs. assert (E : forall g b', In (g, n, b') (vector_values (f_rhs paired_file)) <-> In (g, n, b') (vector_values (f_rhs looser_file))).
    { intros g b'. split; intros H; cases H; try discriminate H; injection H as <- <- <-; first [now elim N1|now elim N2|inn]. }
    split; (intros [[g H]|[Z H]]; [left; exists g; now apply E|right; split; [exact Z|intros g b' I; apply (H g b'); now apply E]]).
  - intros n w. split; [intros [g []]|]. intros [N [g H]]. cases H; try discriminate H. injection H as <- <- <-. now elim N.
  - reflexivity.
Qed.
(** an inequality instead of the upper bound of a column *)
Definition rowed : string := "NAME ROWED
ROWS
 N COST
 L LIM1
 E MYEQN
 L MOST
COLUMNS
 XONE COST 1 LIM1 1
 XONE MOST 1
 YTWO COST 4 LIM1 1
 YTWO MYEQN -1
 ZTHREE COST 0.5 MYEQN 1
RHS
 RHS1 LIM1 5 MYEQN 7
 RHS1 MOST 4
RANGES
 RNG1 LIM1 2.5
BOUNDS
 LO BND1 YTWO -1
 UP BND1 YTWO 2
 FR BND1 ZTHREE
ENDATA
".
Definition rowed_file : file := {|
  f_name := "ROWED";
  f_sense := None;
  f_rows := [(None, "COST"); (Some KLess, "LIM1"); (Some KEqual, "MYEQN"); (Some KLess, "MOST")];
  f_columns := [
    Entries "XONE" [("COST", q 1 1); ("LIM1", q 1 1)]; Entries "XONE" [("MOST", q 1 1)];
    Entries "YTWO" [("COST", q 4 1); ("LIM1", q 1 1)]; Entries "YTWO" [("MYEQN", q (-1) 1)];
    Entries "ZTHREE" [("COST", q 1 2); ("MYEQN", q 1 1)]];
  f_rhs := [("RHS1", [("LIM1", q 5 1); ("MYEQN", q 7 1)]); ("RHS1", [("MOST", q 4 1)])];
  f_ranges := [("RNG1", [("LIM1", q 5 2)])];
  f_bounds := [(LowerContinuous (q (-1) 1), "BND1", "YTWO"); (UpperContinuous (q 2 1), "BND1", "YTWO"); (Free, "BND1", "ZTHREE")]
|}.
Lemma rowed_ok : file_ok rowed_file.
Proof.
  constructor; cbn [rowed_file f_name f_sense f_rows f_columns f_rhs f_ranges f_bounds].
  - now apply name_okb_ok.
  - intros k r H. cbn in H. repeat (destruct H as [H|H]; [injection H as <- <-; split; [now apply name_okb_ok|discriminate]|]). destruct H.
  - cbn. repeat constructor; cbn; intuition discriminate.
  - intros c values H. cbn in H. repeat (destruct H as [H|H]; [first [discriminate H|injection H as <- <-; now apply first_okb_ok]|]). destruct H.
  - cbn. repeat constructor; cbn; intuition discriminate.
  - cbn. repeat constructor; cbn; intuition discriminate.
  - intros g values H. cbn in H. repeat (destruct H as [H|H]; [injection H as <- <-; now apply first_okb_ok|]). destruct H.
  - cbn. repeat constructor; cbn; intuition discriminate.
  - intros g values H. cbn in H. repeat (destruct H as [H|H]; [injection H as <- <-; now apply first_okb_ok|]). destruct H.
  - cbn. repeat constructor; cbn; intuition discriminate.
  - intros t g c H. cbn in H. repeat (destruct H as [H|H]; [injection H as <- <- <-; split; [now apply name_okb_ok|intros X; exact X]|]). destruct H.
  - exists "COST". split; [now left|]. intros c H. cbn in H. repeat (destruct H as [H|H]; [first [discriminate H|now injection H as <-]|]). destruct H.
  - intros c r v H. cbn in H. repeat (destruct H as [H|H]; [injection H as <- <- <-; cbn; tauto|]). destruct H.
  - intros c r v H. cbn in H. repeat (destruct H as [H|H]; [injection H as <- <- <-; cbn; tauto|]). destruct H.
  - intros c r v H. cbn in H. repeat (destruct H as [H|H]; [injection H as <- <- <-; cbn; tauto|]). destruct H.
  - intros t g c H. cbn in H. repeat (destruct H as [H|H]; [injection H as <- <- <-; cbn; tauto|]). destruct H.
Qed.
Lemma rowed_spelled : spells rowed rowed_file.
Proof.
  assert (T : text_of (into_lines rowed) rowed) by (apply text_split; vm_compute; reflexivity).
  exists (into_lines rowed). split; [|exact T]. clear T.
  exists " ROWED", [], (firstn 4 (skipn 2 (into_lines rowed))), ["ROWS"], (firstn 5 (skipn 7 (into_lines rowed))), (firstn 3 (skipn 12 (into_lines rowed))),
    (firstn 2 (skipn 15 (into_lines rowed))), (firstn 4 (skipn 17 (into_lines rowed))).
  split; [apply (spaced_split " ROWED"); reflexivity|].
  split; [exists ""; split; [intros x []|reflexivity]|].
  split; [vm_compute; repeat (constructor; [dline|]); constructor|].
  split.
  { set (ls := firstn 5 (skipn 7 _)). vm_compute in ls. subst ls. cbn [rowed_file f_columns].
    constructor; [split; [now right|]; eexists; split; [constructor; [num false [1%nat] (@None (list nat))|constructor; [num false [1%nat] (@None (list nat))|constructor]]|dline]|].
    constructor; [split; [now left|]; eexists; split; [constructor; [num false [1%nat] (@None (list nat))|constructor]|dline]|].
    constructor; [split; [now right|]; eexists; split; [constructor; [num false [4%nat] (@None (list nat))|constructor; [num false [1%nat] (@None (list nat))|constructor]]|dline]|].
    constructor; [split; [now left|]; eexists; split; [constructor; [num true [1%nat] (@None (list nat))|constructor]|dline]|].
    constructor; [split; [now right|]; eexists; split; [constructor; [num false [0%nat] (Some [5%nat])|constructor; [num false [1%nat] (@None (list nat))|constructor]]|dline]|].
    constructor. }
  split.
  { right. set (ls := firstn 3 (skipn 12 _)). vm_compute in ls. subst ls. eexists. split; [reflexivity|]. cbn [rowed_file f_rhs].
    constructor; [split; [now right|]; eexists; split; [constructor; [num false [5%nat] (@None (list nat))|constructor; [num false [7%nat] (@None (list nat))|constructor]]|dline]|].
    constructor; [split; [now left|]; eexists; split; [constructor; [num false [4%nat] (@None (list nat))|constructor]|dline]|].
    constructor. }
  split.
  { right. set (ls := firstn 2 (skipn 15 _)). vm_compute in ls. subst ls. eexists. split; [reflexivity|]. cbn [rowed_file f_ranges].
    constructor; [split; [now left|]; eexists; split; [constructor; [num false [2%nat] (Some [5%nat])|constructor]|dline]|].
    constructor. }
  split; [|vm_compute; reflexivity].
  right. set (ls := firstn 4 (skipn 17 _)). vm_compute in ls. subst ls. eexists. split; [reflexivity|]. cbn [rowed_file f_bounds].
  constructor; [eexists; split; [eexists; split; [num true [1%nat] (@None (list nat))|reflexivity]|dline]|].
  constructor; [eexists; split; [eexists; split; [num false [2%nat] (@None (list nat))|reflexivity]|dline]|].
  constructor; [eexists; split; [reflexivity|dline]|].
  constructor.
Qed.
Lemma rowed_solvable : file_solvable rowed_file.
Proof.
  constructor.
  - exact (file_ok_rules _ rowed_ok).
  - intros c r v H. cbn in H. repeat (destruct H as [H|H]; [injection H as <- <- <-; intros Z; apply qeqb_true in Z; vm_compute in Z; discriminate Z|]). destruct H.
  - cbn. repeat constructor; cbn; intuition discriminate.
  - intros g r v H. cbn in H. destruct H as [H|[]]. injection H as <- <- <-. exists "RHS1", (q 5 1). now left.
  - intros t g g' c H. cbn in H. repeat (destruct H as [H|H]; [first [discriminate H|injection H as <- <-]|]); [|destruct H]. intros H. cbn in H. repeat (destruct H as [H|H]; [first [discriminate H|now injection H as <-]|]). destruct H.
  - intros c H. cbn in H. repeat (destruct H as [<-|H]; [|]); [..|destruct H].
    + exists 0%Qc. split; [|intros _; apply Qcle_refl]. intros t g T. cbn in T. repeat (destruct T as [T|T]; [first [discriminate T|injection T as <- <-; cbn; discriminate]|]). destruct T.
    + exists 0%Qc. split; [|intros _; apply Qcle_refl]. intros t g T. cbn in T. repeat (destruct T as [T|T]; [first [discriminate T|injection T as <- <-; cbn; discriminate]|]). destruct T.
    + exists 0%Qc. split; [|intros _; apply Qcle_refl]. intros t g T. cbn in T. repeat (destruct T as [T|T]; [first [discriminate T|injection T as <- <-; exact I]|]). destruct T.
Qed.
Definition rowed_answer : answer := Solved_to (mk_solution (q 5 2) [("XONE", q 7 2); ("YTWO", q (-1) 1); ("ZTHREE", q 6 1)]).
Lemma rowed_solved b r n : solve_text b r n 40 rowed = Got (Ok rowed_answer).
Proof. apply text_answer_ok. destruct b, r, n; vm_compute; reflexivity. Qed.
Lemma rowed_answered : answered rowed_file rowed_answer.
Proof. exact (from_free _ _ Checked UseRows FirstProfitable 40 rowed rowed_ok rowed_spelled (rowed_solved _ _ _)). Qed.
Lemma looser_bound_row : with_bound_row "XONE" "MOST" (q 4 1) looser_file rowed_file.
Proof.
  constructor.
  - inn.
  - exists "BND1". inn.
  - intros H. cases H; discriminate H.
  - reflexivity.
  - intros k n. split.
    + intros H. cases H; injection H as <- <-; first [left; split; reflexivity|right; inn].
    + intros [[-> ->]|H]; [inn|]. cases H; injection H as <- <-; inn.
  - intros c. split; intros H; cases H; subst; inn.
  - change 1%Qc with (q 1 1). exact (Permutation_middle (firstn 2 (coefficients looser_file)) (skipn 2 (coefficients looser_file)) ("XONE", "MOST", q 1 1)).
  - left. exists "RHS1". inn.
  - intros n b N. unfold frhs. assert (E : forall g b', In (g, n, b') (vector_values (f_rhs rowed_file)) <-> In (g, n, b') (vector_values (f_rhs looser_file))).
    { intros g b'. split; intros H; cases H; try discriminate H; injection H as <- <- <-; first [now elim N|inn]. }
    split; (intros [[g H]|[Z H]]; [left; exists g; now apply E|right; split; [exact Z|intros g b' I; apply (H g b'); now apply E]]).
  - intros n w. split; intros [g H]; exists g; exact H.
  - intros t g c. split.
    + intros H. cases H; try discriminate H; injection H as <- <- <-; (split; [inn|intros [E _]; discriminate E]).
    + intros [H N]. cases H; try discriminate H; injection H as <- <- <-; first [elim N; split; reflexivity|inn].
Qed.
(** a fixed column, and its value in its place *)
Definition held : string := "NAME HELD
ROWS
 N COST
 L LIM1
 E MYEQN
COLUMNS
 XONE COST 1 LIM1 1
 YTWO COST 4 LIM1 1
 YTWO MYEQN -1
 ZTHREE COST 0.5 MYEQN 1
RHS
 RHS1 LIM1 5 MYEQN 7
RANGES
 RNG1 LIM1 2.5
BOUNDS
 UP BND1 XONE 4
 FX BND1 YTWO -1
 FR BND1 ZTHREE
ENDATA
".
Definition held_file : file := {|
  f_name := "HELD";
  f_sense := None;
  f_rows := [(None, "COST"); (Some KLess, "LIM1"); (Some KEqual, "MYEQN")];
  f_columns := [
    Entries "XONE" [("COST", q 1 1); ("LIM1", q 1 1)];
    Entries "YTWO" [("COST", q 4 1); ("LIM1", q 1 1)]; Entries "YTWO" [("MYEQN", q (-1) 1)];
    Entries "ZTHREE" [("COST", q 1 2); ("MYEQN", q 1 1)]];
  f_rhs := [("RHS1", [("LIM1", q 5 1); ("MYEQN", q 7 1)])];
  f_ranges := [("RNG1", [("LIM1", q 5 2)])];
  f_bounds := [(UpperContinuous (q 4 1), "BND1", "XONE"); (Fixed (q (-1) 1), "BND1", "YTWO"); (Free, "BND1", "ZTHREE")]
|}.
Lemma held_ok : file_ok held_file.
Proof.
  constructor; cbn [held_file f_name f_sense f_rows f_columns f_rhs f_ranges f_bounds].
  - now apply name_okb_ok.
  - intros k r H. cbn in H. repeat (destruct H as [H|H]; [injection H as <- <-; split; [now apply name_okb_ok|discriminate]|]). destruct H.
  - cbn. repeat constructor; cbn; intuition discriminate.
  - intros c values H. cbn in H. repeat (destruct H as [H|H]; [first [discriminate H|injection H as <- <-; now apply first_okb_ok]|]). destruct H.
  - cbn. repeat constructor; cbn; intuition discriminate.
  - cbn. repeat constructor; cbn; intuition discriminate.
  - intros g values H. cbn in H. repeat (destruct H as [H|H]; [injection H as <- <-; now apply first_okb_ok|]). destruct H.
  - cbn. repeat constructor; cbn; intuition discriminate.
  - intros g values H. cbn in H. repeat (destruct H as [H|H]; [injection H as <- <-; now apply first_okb_ok|]). destruct H.
  - cbn. repeat constructor; cbn; intuition discriminate.
  - intros t g c H. cbn in H. repeat (destruct H as [H|H]; [injection H as <- <- <-; split; [now apply name_okb_ok|intros X; exact X]|]). destruct H.
  - exists "COST". split; [now left|]. intros c H. cbn in H. repeat (destruct H as [H|H]; [first [discriminate H|now injection H as <-]|]). destruct H.
  - intros c r v H. cbn in H. repeat (destruct H as [H|H]; [injection H as <- <- <-; cbn; tauto|]). destruct H.
  - intros c r v H. cbn in H. repeat (destruct H as [H|H]; [injection H as <- <- <-; cbn; tauto|]). destruct H.
  - intros c r v H. cbn in H. repeat (destruct H as [H|H]; [injection H as <- <- <-; cbn; tauto|]). destruct H.
  - intros t g c H. cbn in H. repeat (destruct H as [H|H]; [injection H as <- <- <-; cbn; tauto|]). destruct H.
Qed.
Lemma held_spelled : spells held held_file.
Proof.
  assert (T : text_of (into_lines held) held) by (apply text_split; vm_compute; reflexivity).
  exists (into_lines held). split; [|exact T]. clear T.
  exists " HELD", [], (firstn 3 (skipn 2 (into_lines held))), ["ROWS"], (firstn 4 (skipn 6 (into_lines held))), (firstn 2 (skipn 10 (into_lines held))),
    (firstn 2 (skipn 12 (into_lines held))), (firstn 4 (skipn 14 (into_lines held))).
  split; [apply (spaced_split " HELD"); reflexivity|].
  split; [exists ""; split; [intros x []|reflexivity]|].
  split; [vm_compute; repeat (constructor; [dline|]); constructor|].
  split.
  { set (ls := firstn 4 (skipn 6 _)). vm_compute in ls. subst ls. cbn [held_file f_columns].
    constructor; [split; [now right|]; eexists; split; [constructor; [num false [1%nat] (@None (list nat))|constructor; [num false [1%nat] (@None (list nat))|constructor]]|dline]|].
    constructor; [split; [now right|]; eexists; split; [constructor; [num false [4%nat] (@None (list nat))|constructor; [num false [1%nat] (@None (list nat))|constructor]]|dline]|].
    constructor; [split; [now left|]; eexists; split; [constructor; [num true [1%nat] (@None (list nat))|constructor]|dline]|].
    constructor; [split; [now right|]; eexists; split; [constructor; [num false [0%nat] (Some [5%nat])|constructor; [num false [1%nat] (@None (list nat))|constructor]]|dline]|].
    constructor. }
  split.
  { right. set (ls := firstn 2 (skipn 10 _)). vm_compute in ls. subst ls. eexists. split; [reflexivity|]. cbn [held_file f_rhs].
    constructor; [split; [now right|]; eexists; split; [constructor; [num false [5%nat] (@None (list nat))|constructor; [num false [7%nat] (@None (list nat))|constructor]]|dline]|].
    constructor. }
  split.
  { right. set (ls := firstn 2 (skipn 12 _)). vm_compute in ls. subst ls. eexists. split; [reflexivity|]. cbn [held_file f_ranges].
    constructor; [split; [now left|]; eexists; split; [constructor; [num false [2%nat] (Some [5%nat])|constructor]|dline]|].
    constructor. }
  split; [|vm_compute; reflexivity].
  right. set (ls := firstn 4 (skipn 14 _)). vm_compute in ls. subst ls. eexists. split; [reflexivity|]. cbn [held_file f_bounds].
  constructor; [eexists; split; [eexists; split; [num false [4%nat] (@None (list nat))|reflexivity]|dline]|].
  constructor; [eexists; split; [eexists; split; [num true [1%nat] (@None (list nat))|reflexivity]|dline]|].
  constructor; [eexists; split; [reflexivity|dline]|].
  constructor.
Qed.
Lemma held_solvable : file_solvable held_file.
Proof.
  constructor.
  - exact (file_ok_rules _ held_ok).
  - intros c r v H. cbn in H. repeat (destruct H as [H|H]; [injection H as <- <- <-; intros Z; apply qeqb_true in Z; vm_compute in Z; discriminate Z|]). destruct H.
  - cbn. repeat constructor; cbn; intuition discriminate.
  - intros g r v H. cbn in H. destruct H as [H|[]]. injection H as <- <- <-. exists "RHS1", (q 5 1). now left.
  - intros t g g' c H. cbn in H. repeat (destruct H as [H|H]; [first [discriminate H|injection H as <- <-]|]); [|destruct H]. intros H. cbn in H. repeat (destruct H as [H|H]; [first [discriminate H|now injection H as <-]|]). destruct H.
  - intros c H. cbn in H. repeat (destruct H as [<-|H]; [|]); [..|destruct H].
    + exists 0%Qc. split; [|intros _; apply Qcle_refl]. intros t g T. cbn in T. repeat (destruct T as [T|T]; [first [discriminate T|injection T as <- <-; cbn; discriminate]|]). destruct T.
    + exists (q (-1) 1). split; [|intros H; elim (H (Fixed (q (-1) 1)) "BND1"); right; left; reflexivity]. intros t g T. cbn in T. repeat (destruct T as [T|T]; [first [discriminate T|injection T as <- <-; reflexivity]|]). destruct T.
    + exists 0%Qc. split; [|intros _; apply Qcle_refl]. intros t g T. cbn in T. repeat (destruct T as [T|T]; [first [discriminate T|injection T as <- <-; exact I]|]). destruct T.
Qed.
Definition held_answer : answer := Solved_to (mk_solution (q 5 2) [("XONE", q 7 2); ("YTWO", q (-1) 1); ("ZTHREE", q 6 1)]).
Lemma held_solved b r n : solve_text b r n 40 held = Got (Ok held_answer).
Proof. apply text_answer_ok. destruct b, r, n; vm_compute; reflexivity. Qed.
Lemma held_answered : answered held_file held_answer.
Proof. exact (from_free _ _ Checked UseRows FirstProfitable 40 held held_ok held_spelled (held_solved _ _ _)). Qed.
Definition filledin : string := "NAME FILLED
ROWS
 N COST
 L LIM1
 E MYEQN
COLUMNS
 XONE COST 1 LIM1 1
 ZTHREE COST 0.5 MYEQN 1
RHS
 RHS1 LIM1 6 MYEQN 6
RANGES
 RNG1 LIM1 2.5
BOUNDS
 UP BND1 XONE 4
 FR BND1 ZTHREE
ENDATA
".
Definition filledin_file : file := {|
  f_name := "FILLED";
  f_sense := None;
  f_rows := [(None, "COST"); (Some KLess, "LIM1"); (Some KEqual, "MYEQN")];
  f_columns := [
    Entries "XONE" [("COST", q 1 1); ("LIM1", q 1 1)];
    Entries "ZTHREE" [("COST", q 1 2); ("MYEQN", q 1 1)]];
  f_rhs := [("RHS1", [("LIM1", q 6 1); ("MYEQN", q 6 1)])];
  f_ranges := [("RNG1", [("LIM1", q 5 2)])];
  f_bounds := [(UpperContinuous (q 4 1), "BND1", "XONE"); (Free, "BND1", "ZTHREE")]
|}.
Lemma filledin_ok : file_ok filledin_file.
Proof.
  constructor; cbn [filledin_file f_name f_sense f_rows f_columns f_rhs f_ranges f_bounds].
  - now apply name_okb_ok.
  - intros k r H. cbn in H. repeat (destruct H as [H|H]; [injection H as <- <-; split; [now apply name_okb_ok|discriminate]|]). destruct H.
  - cbn. repeat constructor; cbn; intuition discriminate.
  - intros c values H. cbn in H. repeat (destruct H as [H|H]; [first [discriminate H|injection H as <- <-; now apply first_okb_ok]|]). destruct H.
  - cbn. repeat constructor; cbn; intuition discriminate.
  - cbn. repeat constructor; cbn; intuition discriminate.
  - intros g values H. cbn in H. repeat (destruct H as [H|H]; [injection H as <- <-; now apply first_okb_ok|]). destruct H.
  - cbn. repeat constructor; cbn; intuition discriminate.
  - intros g values H. cbn in H. repeat (destruct H as [H|H]; [injection H as <- <-; now apply first_okb_ok|]). destruct H.
  - cbn. repeat constructor; cbn; intuition discriminate.
  - intros t g c H. cbn in H. repeat (destruct H as [H|H]; [injection H as <- <- <-; split; [now apply name_okb_ok|intros X; exact X]|]). destruct H.
  - exists "COST". split; [now left|]. intros c H. cbn in H. repeat (destruct H as [H|H]; [first [discriminate H|now injection H as <-]|]). destruct H.
  - intros c r v H. cbn in H. repeat (destruct H as [H|H]; [injection H as <- <- <-; cbn; tauto|]). destruct H.
  - intros c r v H. cbn in H. repeat (destruct H as [H|H]; [injection H as <- <- <-; cbn; tauto|]). destruct H.
  - intros c r v H. cbn in H. repeat (destruct H as [H|H]; [injection H as <- <- <-; cbn; tauto|]). destruct H.
  - intros t g c H. cbn in H. repeat (destruct H as [H|H]; [injection H as <- <- <-; cbn; tauto|]). destruct H.
Qed.
Lemma filledin_spelled : spells filledin filledin_file.
Proof.
  assert (T : text_of (into_lines filledin) filledin) by (apply text_split; vm_compute; reflexivity).
  exists (into_lines filledin). split; [|exact T]. clear T.
  exists " FILLED", [], (firstn 3 (skipn 2 (into_lines filledin))), ["ROWS"], (firstn 2 (skipn 6 (into_lines filledin))), (firstn 2 (skipn 8 (into_lines filledin))),
    (firstn 2 (skipn 10 (into_lines filledin))), (firstn 3 (skipn 12 (into_lines filledin))).
  split; [apply (spaced_split " FILLED"); reflexivity|].
  split; [exists ""; split; [intros x []|reflexivity]|].
  split; [vm_compute; repeat (constructor; [dline|]); constructor|].
  split.
  { set (ls := firstn 2 (skipn 6 _)). vm_compute in ls. subst ls. cbn [filledin_file f_columns].
    constructor; [split; [now right|]; eexists; split; [constructor; [num false [1%nat] (@None (list nat))|constructor; [num false [1%nat] (@None (list nat))|constructor]]|dline]|].
    constructor; [split; [now right|]; eexists; split; [constructor; [num false [0%nat] (Some [5%nat])|constructor; [num false [1%nat] (@None (list nat))|constructor]]|dline]|].
    constructor. }
  split.
  { right. set (ls := firstn 2 (skipn 8 _)). vm_compute in ls. subst ls. eexists. split; [reflexivity|]. cbn [filledin_file f_rhs].
    constructor; [split; [now right|]; eexists; split; [constructor; [num false [6%nat] (@None (list nat))|constructor; [num false [6%nat] (@None (list nat))|constructor]]|dline]|].
    constructor. }
  split.
  { right. set (ls := firstn 2 (skipn 10 _)). vm_compute in ls. subst ls. eexists. split; [reflexivity|]. cbn [filledin_file f_ranges].
    constructor; [split; [now left|]; eexists; split; [constructor; [num false [2%nat] (Some [5%nat])|constructor]|dline]|].
    constructor. }
  split; [|vm_compute; reflexivity].
  right. set (ls := firstn 3 (skipn 12 _)). vm_compute in ls. subst ls. eexists. split; [reflexivity|]. cbn [filledin_file f_bounds].
  constructor; [eexists; split; [eexists; split; [num false [4%nat] (@None (list nat))|reflexivity]|dline]|].
  constructor; [eexists; split; [reflexivity|dline]|].
  constructor.
Qed.
Lemma filledin_solvable : file_solvable filledin_file.
Proof.
  constructor.
  - exact (file_ok_rules _ filledin_ok).
  - intros c r v H. cbn in H. repeat (destruct H as [H|H]; [injection H as <- <- <-; intros Z; apply qeqb_true in Z; vm_compute in Z; discriminate Z|]). destruct H.
  - cbn. repeat constructor; cbn; intuition discriminate.
  - intros g r v H. cbn in H. destruct H as [H|[]]. injection H as <- <- <-. exists "RHS1", (q 6 1). now left.
  - intros t g g' c H. cbn in H. repeat (destruct H as [H|H]; [first [discriminate H|injection H as <- <-]|]); [|destruct H]. intros H. cbn in H. repeat (destruct H as [H|H]; [first [discriminate H|now injection H as <-]|]). destruct H.
  - intros c H. cbn in H. repeat (destruct H as [<-|H]; [|]); [..|destruct H].
    + exists 0%Qc. split; [|intros _; apply Qcle_refl]. intros t g T. cbn in T. repeat (destruct T as [T|T]; [first [discriminate T|injection T as <- <-; cbn; discriminate]|]). destruct T.
    + exists 0%Qc. split; [|intros _; apply Qcle_refl]. intros t g T. cbn in T. repeat (destruct T as [T|T]; [first [discriminate T|injection T as <- <-; exact I]|]). destruct T.
Qed.
Definition filledin_answer : answer := Solved_to (mk_solution (q 13 2) [("XONE", q 7 2); ("ZTHREE", q 6 1)]).
Lemma filledin_solved b r n : solve_text b r n 40 filledin = Got (Ok filledin_answer).
Proof. apply text_answer_ok. destruct b, r, n; vm_compute; reflexivity. Qed.
Lemma filledin_answered : answered filledin_file filledin_answer.
Proof. exact (from_free _ _ Checked UseRows FirstProfitable 40 filledin filledin_ok filledin_spelled (filledin_solved _ _ _)). Qed.
Lemma held_value : with_value "YTWO" (q (-1) 1) held_file filledin_file.
Proof.
  constructor; try reflexivity.
  - inn.
  - intros x. split.
    + intros [H _]. apply (H (Fixed (q (-1) 1)) "BND1"). inn.
    + intros ->. split; [|intros H; elim (H (Fixed (q (-1) 1)) "BND1"); inn]. intros t g H. cases H; try discriminate H; injection H as <- <-; reflexivity.
  - intros c. split.
    + intros H. cases H; subst; (split; [discriminate|inn]).
    + intros [N H]. cases H; subst; first [now elim N|inn].
  - intros k r b H. cases H; try discriminate H; injection H as <- <-.
    + assert (E : (coefficient_of held_file "LIM1" "YTWO" * q (-1) 1 = q (-1) 1)%Qc) by (apply qeqb_true; vm_compute; reflexivity). assert (E5 : (q 5 1 - q (-1) 1 = q 6 1)%Qc) by (apply qeqb_true; vm_compute; reflexivity). rewrite E. split.
      * intros [[g I]|[_ I]]; [|elim (I "RHS1" (q 6 1)); inn]. cases I; try discriminate I. apply (f_equal snd) in I. cbn [snd] in I. left. exists "RHS1". assert (B : b = q 5 1) by (clear - I E5; rewrite <- E5 in I; transitivity (b - q (-1) 1 + q (-1) 1)%Qc; [ring|rewrite <- I; ring]). rewrite B. inn.
      * intros [[g I]|[_ I]]; [|elim (I "RHS1" (q 5 1)); inn]. cases I; try discriminate I. injection I as _ <-. rewrite E5. left. exists "RHS1". inn.
    + assert (E : (coefficient_of held_file "MYEQN" "YTWO" * q (-1) 1 = q 1 1)%Qc) by (apply qeqb_true; vm_compute; reflexivity). assert (E7 : (q 7 1 - q 1 1 = q 6 1)%Qc) by (apply qeqb_true; vm_compute; reflexivity). rewrite E. split.
      * intros [[g I]|[_ I]]; [|elim (I "RHS1" (q 6 1)); inn]. cases I; try discriminate I. apply (f_equal snd) in I. cbn [snd] in I. left. exists "RHS1". assert (B : b = q 7 1) by (clear - I E7; rewrite <- E7 in I; transitivity (b - q 1 1 + q 1 1)%Qc; [ring|rewrite <- I; ring]). rewrite B. inn.
      * intros [[g I]|[_ I]]; [|elim (I "RHS1" (q 7 1)); inn]. cases I; try discriminate I. injection I as _ <-. rewrite E7. left. exists "RHS1". inn.
  - intros t g c. split.
    + intros H. cases H; try discriminate H; injection H as <- <- <-; (split; [discriminate|inn]).
    + intros [N H]. cases H; try discriminate H; injection H as <- <- <-; first [now elim N|inn].
Qed.
