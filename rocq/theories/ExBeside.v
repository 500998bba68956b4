(** * Two programs in one file *)
From Verif Require Import SpecBeside OrderP UnitsP BesideP TextP FileP ExParse Examples ExGeneral ExFile ExTextPresolve ExOrder ExUnits.
Local Open Scope string_scope.
Local Open Scope list_scope.

(** another small program *)
Definition second : string := "NAME SECOND
ROWS
 N COST
 G NEED
COLUMNS
 UFOUR COST 2 NEED 1
 VFIVE COST 3 NEED 2
RHS
 RHS1 NEED 4
BOUNDS
 UP BND1 UFOUR 3
ENDATA
".
Definition second_file : file := {|
  f_name := "SECOND";
  f_sense := None;
  f_rows := [(None, "COST"); (Some KGreater, "NEED")];
  f_columns := [Entries "UFOUR" [("COST", q 2 1); ("NEED", q 1 1)]; Entries "VFIVE" [("COST", q 3 1); ("NEED", q 2 1)]];
  f_rhs := [("RHS1", [("NEED", q 4 1)])];
  f_ranges := [];
  f_bounds := [(UpperContinuous (q 3 1), "BND1", "UFOUR")]
|}.
Lemma second_ok : file_ok second_file.
Proof.
  constructor; cbn [second_file f_name f_sense f_rows f_columns f_rhs f_ranges f_bounds].
  - now apply name_okb_ok.
  - intros k r H. cbn in H. repeat (destruct H as [H|H]; [injection H as <- <-; split; [now apply name_okb_ok|discriminate]|]). destruct H.
  - cbn. repeat constructor; cbn; intuition discriminate.
  - intros c values H. cbn in H. repeat (destruct H as [H|H]; [first [discriminate H|injection H as <- <-; now apply first_okb_ok]|]). destruct H.
  - cbn. repeat constructor; cbn; intuition discriminate.
  - cbn. repeat constructor; cbn; intuition discriminate.
  - intros g values H. cbn in H. repeat (destruct H as [H|H]; [injection H as <- <-; now apply first_okb_ok|]). destruct H.
  - cbn. repeat constructor; cbn; intuition discriminate.
  - intros g values H. cbn in H. repeat (destruct H as [H|H]; [injection H as <- <-; now apply first_okb_ok|]). destruct H.
  - cbn. repeat constructor; cbn; intuition discriminate.
  - intros t g c H. cbn in H. repeat (destruct H as [H|H]; [injection H as <- <- <-; split; [now apply name_okb_ok|intros X; exact X]|]). destruct H.
  - exists "COST". split; [now left|]. intros c H. cbn in H. repeat (destruct H as [H|H]; [first [discriminate H|now injection H as <-]|]). destruct H.
  - intros c r v H. cbn in H. repeat (destruct H as [H|H]; [injection H as <- <- <-; cbn; tauto|]). destruct H.
  - intros c r v H. cbn in H. repeat (destruct H as [H|H]; [injection H as <- <- <-; cbn; tauto|]). destruct H.
  - intros c r v H. cbn in H. repeat (destruct H as [H|H]; [injection H as <- <- <-; cbn; tauto|]). destruct H.
  - intros t g c H. cbn in H. repeat (destruct H as [H|H]; [injection H as <- <- <-; cbn; tauto|]). destruct H.
Qed.
Lemma second_spelled : spells second second_file.
Proof.
  assert (T : text_of (into_lines second) second) by (apply text_split; vm_compute; reflexivity).
  exists (into_lines second). split; [|exact T]. clear T.
  exists " SECOND", [], (firstn 2 (skipn 2 (into_lines second))), ["ROWS"], (firstn 2 (skipn 5 (into_lines second))), (firstn 2 (skipn 7 (into_lines second))),
    [], (firstn 2 (skipn 9 (into_lines second))).
  split; [apply (spaced_split " SECOND"); reflexivity|].
  split; [exists ""; split; [intros x []|reflexivity]|].
  split; [vm_compute; repeat (constructor; [dline|]); constructor|].
  split.
  { set (ls := firstn 2 (skipn 5 _)). vm_compute in ls. subst ls. cbn [second_file f_columns].
    constructor; [split; [now right|]; eexists; split; [constructor; [num false [2%nat] (@None (list nat))|constructor; [num false [1%nat] (@None (list nat))|constructor]]|dline]|].
    constructor; [split; [now right|]; eexists; split; [constructor; [num false [3%nat] (@None (list nat))|constructor; [num false [2%nat] (@None (list nat))|constructor]]|dline]|].
    constructor. }
  split.
  { right. set (ls := firstn 2 (skipn 7 _)). vm_compute in ls. subst ls. eexists. split; [reflexivity|]. cbn [second_file f_rhs].
    constructor; [split; [now left|]; eexists; split; [constructor; [num false [4%nat] (@None (list nat))|constructor]|dline]|].
    constructor. }
  split.
  { now left. }
  split; [|vm_compute; reflexivity].
  right. set (ls := firstn 2 (skipn 9 _)). vm_compute in ls. subst ls. eexists. split; [reflexivity|]. cbn [second_file f_bounds].
  constructor; [eexists; split; [eexists; split; [num false [3%nat] (@None (list nat))|reflexivity]|dline]|].
  constructor.
Qed.
Lemma second_solvable : file_solvable second_file.
Proof.
  constructor.
  - exact (file_ok_rules _ second_ok).
  - intros c r v H. cbn in H. repeat (destruct H as [H|H]; [injection H as <- <- <-; intros Z; apply qeqb_true in Z; vm_compute in Z; discriminate Z|]). destruct H.
  - cbn. repeat constructor; cbn; intuition discriminate.
  - intros g r v H. cbn in H. destruct H.
  - intros t g g' c H. cbn in H. repeat (destruct H as [H|H]; [discriminate H|]). destruct H.
  - intros c H. cbn in H. repeat (destruct H as [<-|H]; [|]); [..|destruct H].
    + exists 0%Qc. split; [|intros _; apply Qcle_refl]. intros t g T. cbn in T. repeat (destruct T as [T|T]; [first [discriminate T|injection T as <- <-; cbn; discriminate]|]). destruct T.
    + exists 0%Qc. split; [|intros _; apply Qcle_refl]. intros t g T. cbn in T. repeat (destruct T as [T|T]; [first [discriminate T|injection T as <- <-; cbn; discriminate]|]). destruct T.
Qed.
Definition second_answer : answer := Solved_to (mk_solution (q 6 1) [("UFOUR", q 0 1); ("VFIVE", q 2 1)]).
Lemma second_solved b r n : solve_text b r n 40 second = Got (Ok second_answer).
Proof. apply text_answer_ok. destruct b, r, n; vm_compute; reflexivity. Qed.
Lemma second_answered : answered second_file second_answer.
Proof. exact (from_free _ _ Checked UseRows FirstProfitable 40 second second_ok second_spelled (second_solved _ _ _)). Qed.

(** it and the program of ExOrder.v *)
Definition joined : string := "NAME JOINED
ROWS
 N COST
 G NEED
 L LIM1
 E MYEQN
COLUMNS
 UFOUR COST 2 NEED 1
 XONE COST 1 LIM1 1
 YTWO COST 4 LIM1 1
 YTWO MYEQN -1
 VFIVE COST 3 NEED 2
 ZTHREE COST 0.5 MYEQN 1
RHS
 RHS1 LIM1 5 MYEQN 7
 RHS1 NEED 4
RANGES
 RNG1 LIM1 2.5
BOUNDS
 UP BND1 XONE 4
 UP BND1 UFOUR 3
 LO BND1 YTWO -1
 UP BND1 YTWO 2
 FR BND1 ZTHREE
ENDATA
".
Definition joined_file : file := {|
  f_name := "JOINED";
  f_sense := None;
  f_rows := [(None, "COST"); (Some KGreater, "NEED"); (Some KLess, "LIM1"); (Some KEqual, "MYEQN")];
  f_columns := [
    Entries "UFOUR" [("COST", q 2 1); ("NEED", q 1 1)]; Entries "XONE" [("COST", q 1 1); ("LIM1", q 1 1)];
    Entries "YTWO" [("COST", q 4 1); ("LIM1", q 1 1)]; Entries "YTWO" [("MYEQN", q (-1) 1)];
    Entries "VFIVE" [("COST", q 3 1); ("NEED", q 2 1)]; Entries "ZTHREE" [("COST", q 1 2); ("MYEQN", q 1 1)]];
  f_rhs := [("RHS1", [("LIM1", q 5 1); ("MYEQN", q 7 1)]); ("RHS1", [("NEED", q 4 1)])];
  f_ranges := [("RNG1", [("LIM1", q 5 2)])];
  f_bounds := [(UpperContinuous (q 4 1), "BND1", "XONE"); (UpperContinuous (q 3 1), "BND1", "UFOUR"); (LowerContinuous (q (-1) 1), "BND1", "YTWO"); (UpperContinuous (q 2 1), "BND1", "YTWO"); (Free, "BND1", "ZTHREE")]
|}.
Lemma joined_ok : file_ok joined_file.
Proof.
  constructor; cbn [joined_file f_name f_sense f_rows f_columns f_rhs f_ranges f_bounds].
  - now apply name_okb_ok.
  - intros k r H. cbn in H. repeat (destruct H as [H|H]; [injection H as <- <-; split; [now apply name_okb_ok|discriminate]|]). destruct H.
  - cbn. repeat constructor; cbn; intuition discriminate.
  - intros c values H. cbn in H. repeat (destruct H as [H|H]; [first [discriminate H|injection H as <- <-; now apply first_okb_ok]|]). destruct H.
  - cbn. repeat constructor; cbn; intuition discriminate.
  - cbn. repeat constructor; cbn; intuition discriminate.
  - intros g values H. cbn in H. repeat (destruct H as [H|H]; [injection H as <- <-; now apply first_okb_ok|]). destruct H.
  - cbn. repeat constructor; cbn; intuition discriminate.
  - intros g values H. cbn in H. repeat (destruct H as [H|H]; [injection H as <- <-; now apply first_okb_ok|]). destruct H.
  - cbn. repeat constructor; cbn; intuition discriminate.
  - intros t g c H. cbn in H. repeat (destruct H as [H|H]; [injection H as <- <- <-; split; [now apply name_okb_ok|intros X; exact X]|]). destruct H.
  - exists "COST". split; [now left|]. intros c H. cbn in H. repeat (destruct H as [H|H]; [first [discriminate H|now injection H as <-]|]). destruct H.
  - intros c r v H. cbn in H. repeat (destruct H as [H|H]; [injection H as <- <- <-; cbn; tauto|]). destruct H.
  - intros c r v H. cbn in H. repeat (destruct H as [H|H]; [injection H as <- <- <-; cbn; tauto|]). destruct H.
  - intros c r v H. cbn in H. repeat (destruct H as [H|H]; [injection H as <- <- <-; cbn; tauto|]). destruct H.
  - intros t g c H. cbn in H. repeat (destruct H as [H|H]; [injection H as <- <- <-; cbn; tauto|]). destruct H.
Qed.
Lemma joined_spelled : spells joined joined_file.
Proof.
  assert (T : text_of (into_lines joined) joined) by (apply text_split; vm_compute; reflexivity).
  exists (into_lines joined). split; [|exact T]. clear T.
  exists " JOINED", [], (firstn 4 (skipn 2 (into_lines joined))), ["ROWS"], (firstn 6 (skipn 7 (into_lines joined))), (firstn 3 (skipn 13 (into_lines joined))),
    (firstn 2 (skipn 16 (into_lines joined))), (firstn 6 (skipn 18 (into_lines joined))).
  split; [apply (spaced_split " JOINED"); reflexivity|].
  split; [exists ""; split; [intros x []|reflexivity]|].
  split; [vm_compute; repeat (constructor; [dline|]); constructor|].
  split.
  { set (ls := firstn 6 (skipn 7 _)). vm_compute in ls. subst ls. cbn [joined_file f_columns].
    constructor; [split; [now right|]; eexists; split; [constructor; [num false [2%nat] (@None (list nat))|constructor; [num false [1%nat] (@None (list nat))|constructor]]|dline]|].
    constructor; [split; [now right|]; eexists; split; [constructor; [num false [1%nat] (@None (list nat))|constructor; [num false [1%nat] (@None (list nat))|constructor]]|dline]|].
    constructor; [split; [now right|]; eexists; split; [constructor; [num false [4%nat] (@None (list nat))|constructor; [num false [1%nat] (@None (list nat))|constructor]]|dline]|].
    constructor; [split; [now left|]; eexists; split; [constructor; [num true [1%nat] (@None (list nat))|constructor]|dline]|].
    constructor; [split; [now right|]; eexists; split; [constructor; [num false [3%nat] (@None (list nat))|constructor; [num false [2%nat] (@None (list nat))|constructor]]|dline]|].
    constructor; [split; [now right|]; eexists; split; [constructor; [num false [0%nat] (Some [5%nat])|constructor; [num false [1%nat] (@None (list nat))|constructor]]|dline]|].
    constructor. }
  split.
  { right. set (ls := firstn 3 (skipn 13 _)). vm_compute in ls. subst ls. eexists. split; [reflexivity|]. cbn [joined_file f_rhs].
    constructor; [split; [now right|]; eexists; split; [constructor; [num false [5%nat] (@None (list nat))|constructor; [num false [7%nat] (@None (list nat))|constructor]]|dline]|].
    constructor; [split; [now left|]; eexists; split; [constructor; [num false [4%nat] (@None (list nat))|constructor]|dline]|].
    constructor. }
  split.
  { right. set (ls := firstn 2 (skipn 16 _)). vm_compute in ls. subst ls. eexists. split; [reflexivity|]. cbn [joined_file f_ranges].
    constructor; [split; [now left|]; eexists; split; [constructor; [num false [2%nat] (Some [5%nat])|constructor]|dline]|].
    constructor. }
  split; [|vm_compute; reflexivity].
  right. set (ls := firstn 6 (skipn 18 _)). vm_compute in ls. subst ls. eexists. split; [reflexivity|]. cbn [joined_file f_bounds].
  constructor; [eexists; split; [eexists; split; [num false [4%nat] (@None (list nat))|reflexivity]|dline]|].
  constructor; [eexists; split; [eexists; split; [num false [3%nat] (@None (list nat))|reflexivity]|dline]|].
  constructor; [eexists; split; [eexists; split; [num true [1%nat] (@None (list nat))|reflexivity]|dline]|].
  constructor; [eexists; split; [eexists; split; [num false [2%nat] (@None (list nat))|reflexivity]|dline]|].
  constructor; [eexists; split; [reflexivity|dline]|].
  constructor.
Qed.
Lemma joined_solvable : file_solvable joined_file.
Proof.
  constructor.
  - exact (file_ok_rules _ joined_ok).
  - intros c r v H. cbn in H. repeat (destruct H as [H|H]; [injection H as <- <- <-; intros Z; apply qeqb_true in Z; vm_compute in Z; discriminate Z|]). destruct H.
  - cbn. repeat constructor; cbn; intuition discriminate.
  - intros g r v H. cbn in H. destruct H as [H|[]]. injection H as <- <- <-. exists "RHS1", (q 5 1). now left.
  - intros t g g' c H. cbn in H. repeat (destruct H as [H|H]; [first [discriminate H|injection H as <- <-]|]); [|destruct H]. intros H. cbn in H. repeat (destruct H as [H|H]; [first [discriminate H|now injection H as <-]|]). destruct H.
  - intros c H. cbn in H. repeat (destruct H as [<-|H]; [|]); [..|destruct H].
    + exists 0%Qc. split; [|intros _; apply Qcle_refl]. intros t g T. cbn in T. repeat (destruct T as [T|T]; [first [discriminate T|injection T as <- <-; cbn; discriminate]|]). destruct T.
    + exists 0%Qc. split; [|intros _; apply Qcle_refl]. intros t g T. cbn in T. repeat (destruct T as [T|T]; [first [discriminate T|injection T as <- <-; cbn; discriminate]|]). destruct T.
    + exists 0%Qc. split; [|intros _; apply Qcle_refl]. intros t g T. cbn in T. repeat (destruct T as [T|T]; [first [discriminate T|injection T as <- <-; cbn; discriminate]|]). destruct T.
    + exists 0%Qc. split; [|intros _; apply Qcle_refl]. intros t g T. cbn in T. repeat (destruct T as [T|T]; [first [discriminate T|injection T as <- <-; cbn; discriminate]|]). destruct T.
    + exists 0%Qc. split; [|intros _; apply Qcle_refl]. intros t g T. cbn in T. repeat (destruct T as [T|T]; [first [discriminate T|injection T as <- <-; exact I]|]). destruct T.
Qed.
Definition joined_answer : answer := Solved_to (mk_solution (q 17 2) [("UFOUR", q 0 1); ("XONE", q 7 2); ("YTWO", q (-1) 1); ("VFIVE", q 2 1); ("ZTHREE", q 6 1)]).
Lemma joined_solved b r n : solve_text b r n 60 joined = Got (Ok joined_answer).
Proof. apply text_answer_ok. destruct b, r, n; vm_compute; reflexivity. Qed.
Lemma joined_answered : answered joined_file joined_answer.
Proof. exact (from_free _ _ Checked UseRows FirstProfitable 60 joined joined_ok joined_spelled (joined_solved _ _ _)). Qed.
Ltac pick H := cases H; try discriminate H; injection H; intros; subst.
Lemma joined_beside : beside looser_file second_file joined_file.
Proof.
  constructor; try reflexivity.
  - intros k1 k2 r H K. pick H; cases K; discriminate K.
  - intros c H K. cases H; subst; cases K; discriminate K.
  - intros k r. split.
    + intros H. pick H; first [left; inn; fail|right; inn].
    + intros [H|H]; pick H; inn.
  - intros c. split.
    + intros H. cases H; subst; first [left; inn; fail|right; inn].
    + intros [H|H]; cases H; subst; inn.
  - set (l := coefficients looser_file). set (m := coefficients second_file).
    change (Permutation ((firstn 5 l ++ skipn 5 l) ++ firstn 2 m ++ skipn 2 m) (firstn 2 m ++ firstn 5 l ++ skipn 2 m ++ skipn 5 l)).
    rewrite Permutation_app_comm, <- app_assoc. apply Permutation_app_head. apply Permutation_app_swap_app.
  - intros r b. split.
    + intros [g H]. pick H; first [left; exists "RHS1"; inn; fail|right; exists "RHS1"; inn].
    + intros [[g H]|[g H]]; pick H; exists "RHS1"; inn.
  - intros r v. split.
    + intros [g H]. pick H; left; exists "RNG1"; inn.
    + intros [[g H]|[g H]]; [pick H; exists "RNG1"; inn|destruct H].
  - intros t c. split.
    + intros [g H]. pick H; first [left; exists "BND1"; inn; fail|right; exists "BND1"; inn].
    + intros [[g H]|[g H]]; pick H; exists "BND1"; inn.
Qed.
