(** * Files with a packing and a covering program *)
From Verif Require Import SpecFSides SpecFixed TextPresolve TextPresolveP ExGeneral ExParse TextP FileP ExFile ExFixed FSidesP.
Local Open Scope string_scope.
Local Open Scope list_scope.

(** as much as possible from wood and hours of work; the row of the hours is a bound on the chairs *)
Definition pack_text : string := "NAME          PACK
OBJSENSE
  MAX
ROWS
 N  PROFIT
 L  WOOD
 L  HOURS
COLUMNS
    CHAIR     PROFIT               3   WOOD                 1
    CHAIR     HOURS                2
    TABLE     PROFIT               5   WOOD                 4
    SHELF     PROFIT               1   WOOD                 1
RHS
    STOCK     WOOD                40   HOURS               20
BOUNDS
 UP BND       SHELF                6
ENDATA
".
Definition pack_text_file : file := {|
  f_name := "PACK";
  f_sense := Some Maximize;
  f_rows := [(None, "PROFIT"); (Some KLess, "WOOD"); (Some KLess, "HOURS")];
  f_columns := [Entries "CHAIR" [("PROFIT", q 3 1); ("WOOD", q 1 1)]; Entries "CHAIR" [("HOURS", q 2 1)]; Entries "TABLE" [("PROFIT", q 5 1); ("WOOD", q 4 1)]; Entries "SHELF" [("PROFIT", q 1 1); ("WOOD", q 1 1)]];
  f_rhs := [("STOCK", [("WOOD", q 40 1); ("HOURS", q 20 1)])];
  f_ranges := [];
  f_bounds := [(UpperContinuous (q 6 1), "BND", "SHELF")]
|}.
Lemma pack_text_ok : file_ok pack_text_file.
Proof.
  constructor; cbn [pack_text_file f_name f_sense f_rows f_columns f_rhs f_ranges f_bounds].
  - now apply name_okb_ok.
  - intros k r H. cbn in H. repeat (destruct H as [H|H]; [injection H as <- <-; split; [now apply name_okb_ok|discriminate]|]). destruct H.
  - cbn. repeat constructor; cbn; intuition discriminate.
  - intros c values H. cbn in H. repeat (destruct H as [H|H]; [first [discriminate H|injection H as <- <-; now apply first_okb_ok]|]). destruct H.
  - cbn. repeat constructor; cbn; intuition discriminate.
  - cbn. repeat constructor; cbn; intuition discriminate.
  - intros g values H. cbn in H. repeat (destruct H as [H|H]; [injection H as <- <-; now apply first_okb_ok|]). destruct H.
  - cbn. repeat constructor; cbn; intuition discriminate.
  - intros g values H. cbn in H. repeat (destruct H as [H|H]; [injection H as <- <-; now apply first_okb_ok|]). destruct H.
  - cbn. repeat constructor; cbn; intuition discriminate.
  - intros t g c H. cbn in H. repeat (destruct H as [H|H]; [injection H as <- <- <-; split; [now apply name_okb_ok|intros X; exact X]|]). destruct H.
  - exists "PROFIT". split; [now left|]. intros c H. cbn in H. repeat (destruct H as [H|H]; [first [discriminate H|now injection H as <-]|]). destruct H.
  - intros c r v H. cbn in H. repeat (destruct H as [H|H]; [injection H as <- <- <-; cbn; tauto|]). destruct H.
  - intros c r v H. cbn in H. repeat (destruct H as [H|H]; [injection H as <- <- <-; cbn; tauto|]). destruct H.
  - intros c r v H. cbn in H. repeat (destruct H as [H|H]; [injection H as <- <- <-; cbn; tauto|]). destruct H.
  - intros t g c H. cbn in H. repeat (destruct H as [H|H]; [injection H as <- <- <-; cbn; tauto|]). destruct H.
Qed.
Lemma pack_text_spelled : spells pack_text pack_text_file.
Proof.
  assert (T : text_of (into_lines pack_text) pack_text) by (apply text_split; vm_compute; reflexivity).
  exists (into_lines pack_text). split; [|exact T]. clear T.
  exists "          PACK", [], (firstn 3 (skipn 4 (into_lines pack_text))), (firstn 3 (skipn 1 (into_lines pack_text))), (firstn 4 (skipn 8 (into_lines pack_text))), (firstn 2 (skipn 12 (into_lines pack_text))),
    [], (firstn 2 (skipn 14 (into_lines pack_text))).
  split; [apply (spaced_split "          PACK"); reflexivity|].
  split; [vm_compute; exists ""; split; [intros x []|]; exists "", "", "MAX"; split; [intros x []|]; split; [intros x []|]; split; [right; now left|reflexivity]|].
  split; [vm_compute; repeat (constructor; [dline|]); constructor|].
  split.
  { set (ls := firstn 4 _). vm_compute in ls. subst ls. cbn [pack_text_file f_columns].
    constructor; [split; [now right|]; eexists; split; [constructor; [num false [3%nat] (@None (list nat))|constructor; [num false [1%nat] (@None (list nat))|constructor]]|dline]|].
    constructor; [split; [now left|]; eexists; split; [constructor; [num false [2%nat] (@None (list nat))|constructor]|dline]|].
    constructor; [split; [now right|]; eexists; split; [constructor; [num false [5%nat] (@None (list nat))|constructor; [num false [4%nat] (@None (list nat))|constructor]]|dline]|].
    constructor; [split; [now right|]; eexists; split; [constructor; [num false [1%nat] (@None (list nat))|constructor; [num false [1%nat] (@None (list nat))|constructor]]|dline]|]. constructor. }
  split.
  { right. set (ls := firstn 2 (skipn 12 _)). vm_compute in ls. subst ls. eexists. split; [reflexivity|]. cbn [pack_text_file f_rhs].
    constructor; [split; [now right|]; eexists; split; [constructor; [num false [4%nat; 0%nat] (@None (list nat))|constructor; [num false [2%nat; 0%nat] (@None (list nat))|constructor]]|dline]|]. constructor. }
  split; [left; now split|].
  split; [|vm_compute; reflexivity].
  right. set (ls := firstn 2 (skipn 14 _)). vm_compute in ls. subst ls. eexists. split; [reflexivity|]. cbn [pack_text_file f_bounds].
  constructor; [eexists; split; [eexists; split; [num false [6%nat] (@None (list nat))|reflexivity]|dline]|]. constructor.
Qed.
Lemma pack_text_solvable : file_solvable pack_text_file.
Proof.
  constructor.
  - exact (file_ok_rules _ pack_text_ok).
  - intros c r v H. cbn in H. repeat (destruct H as [H|H]; [injection H as <- <- <-; intros Z; apply qeqb_true in Z; vm_compute in Z; discriminate Z|]). destruct H.
  - cbn. repeat constructor; cbn; intuition discriminate.
  - intros g r v [].
  - intros t g g' c H. cbn in H. repeat (destruct H as [H|H]; [discriminate H|]). destruct H.
  - intros c _. exists 0%Qc. split; [|intros _; apply Qcle_refl]. intros t g T. cbn in T. repeat (destruct T as [T|T]; [injection T as <- <- _; cbn; discriminate|]). destruct T.
Qed.
(** iron and fibre, as cheap as possible; the row of the fibre is a bound on the bread *)
Definition cover_text : string := "NAME          COVER
ROWS
 N  COST
 G  IRON
 G  FIBRE
COLUMNS
    BREAD     COST                 2   IRON                 1
    BREAD     FIBRE                3
    BEANS     COST                 3   IRON                 2
RHS
    NEED      IRON                 6   FIBRE                6
ENDATA
".
Definition cover_text_file : file := {|
  f_name := "COVER";
  f_sense := None;
  f_rows := [(None, "COST"); (Some KGreater, "IRON"); (Some KGreater, "FIBRE")];
  f_columns := [Entries "BREAD" [("COST", q 2 1); ("IRON", q 1 1)]; Entries "BREAD" [("FIBRE", q 3 1)]; Entries "BEANS" [("COST", q 3 1); ("IRON", q 2 1)]];
  f_rhs := [("NEED", [("IRON", q 6 1); ("FIBRE", q 6 1)])];
  f_ranges := [];
  f_bounds := []
|}.
Lemma cover_text_ok : file_ok cover_text_file.
Proof.
  constructor; cbn [cover_text_file f_name f_sense f_rows f_columns f_rhs f_ranges f_bounds].
  - now apply name_okb_ok.
  - intros k r H. cbn in H. repeat (destruct H as [H|H]; [injection H as <- <-; split; [now apply name_okb_ok|discriminate]|]). destruct H.
  - cbn. repeat constructor; cbn; intuition discriminate.
  - intros c values H. cbn in H. repeat (destruct H as [H|H]; [first [discriminate H|injection H as <- <-; now apply first_okb_ok]|]). destruct H.
  - cbn. repeat constructor; cbn; intuition discriminate.
  - cbn. repeat constructor; cbn; intuition discriminate.
  - intros g values H. cbn in H. repeat (destruct H as [H|H]; [injection H as <- <-; now apply first_okb_ok|]). destruct H.
  - cbn. repeat constructor; cbn; intuition discriminate.
  - intros g values H. cbn in H. repeat (destruct H as [H|H]; [injection H as <- <-; now apply first_okb_ok|]). destruct H.
  - cbn. repeat constructor; cbn; intuition discriminate.
  - intros t g c H. cbn in H. repeat (destruct H as [H|H]; [injection H as <- <- <-; split; [now apply name_okb_ok|intros X; exact X]|]). destruct H.
  - exists "COST". split; [now left|]. intros c H. cbn in H. repeat (destruct H as [H|H]; [first [discriminate H|now injection H as <-]|]). destruct H.
  - intros c r v H. cbn in H. repeat (destruct H as [H|H]; [injection H as <- <- <-; cbn; tauto|]). destruct H.
  - intros c r v H. cbn in H. repeat (destruct H as [H|H]; [injection H as <- <- <-; cbn; tauto|]). destruct H.
  - intros c r v H. cbn in H. repeat (destruct H as [H|H]; [injection H as <- <- <-; cbn; tauto|]). destruct H.
  - intros t g c H. cbn in H. repeat (destruct H as [H|H]; [injection H as <- <- <-; cbn; tauto|]). destruct H.
Qed.
Lemma cover_text_spelled : spells cover_text cover_text_file.
Proof.
  assert (T : text_of (into_lines cover_text) cover_text) by (apply text_split; vm_compute; reflexivity).
  exists (into_lines cover_text). split; [|exact T]. clear T.
  exists "          COVER", [], (firstn 3 (skipn 2 (into_lines cover_text))), (firstn 1 (skipn 1 (into_lines cover_text))), (firstn 3 (skipn 6 (into_lines cover_text))), (firstn 2 (skipn 9 (into_lines cover_text))),
    [], [].
  split; [apply (spaced_split "          COVER"); reflexivity|].
  split; [exists ""; split; [intros x []|reflexivity]|].
  split; [vm_compute; repeat (constructor; [dline|]); constructor|].
  split.
  { set (ls := firstn 3 _). vm_compute in ls. subst ls. cbn [cover_text_file f_columns].
    constructor; [split; [now right|]; eexists; split; [constructor; [num false [2%nat] (@None (list nat))|constructor; [num false [1%nat] (@None (list nat))|constructor]]|dline]|].
    constructor; [split; [now left|]; eexists; split; [constructor; [num false [3%nat] (@None (list nat))|constructor]|dline]|].
    constructor; [split; [now right|]; eexists; split; [constructor; [num false [3%nat] (@None (list nat))|constructor; [num false [2%nat] (@None (list nat))|constructor]]|dline]|]. constructor. }
  split.
  { right. set (ls := firstn 2 (skipn 9 _)). vm_compute in ls. subst ls. eexists. split; [reflexivity|]. cbn [cover_text_file f_rhs].
    constructor; [split; [now right|]; eexists; split; [constructor; [num false [6%nat] (@None (list nat))|constructor; [num false [6%nat] (@None (list nat))|constructor]]|dline]|]. constructor. }
  split; [left; now split|].
  split; [left; now split|vm_compute; reflexivity].
Qed.
Lemma cover_text_solvable : file_solvable cover_text_file.
Proof.
  constructor.
  - exact (file_ok_rules _ cover_text_ok).
  - intros c r v H. cbn in H. repeat (destruct H as [H|H]; [injection H as <- <- <-; intros Z; apply qeqb_true in Z; vm_compute in Z; discriminate Z|]). destruct H.
  - cbn. repeat constructor; cbn; intuition discriminate.
  - intros g r v [].
  - intros t g g' c H. cbn in H. destruct H.
  - intros c _. exists 0%Qc. split; [|intros _; apply Qcle_refl]. intros t g T. cbn in T. destruct T.
Qed.
Ltac pos := apply qltb_true; vm_compute; reflexivity.
Ltac places H tac := repeat (destruct H as [H|H]; [first [discriminate H|injection H as <- <- <-; tac]|]); destruct H.
Lemma pack_text_packing : file_packing pack_text_file.
Proof.
  constructor.
  - intros k r H. cbn in H. repeat (destruct H as [H|H]; [first [discriminate H|now injection H as <- <-]|]). destruct H.
  - intros c r v H N. cbn in H. repeat (destruct H as [H|H]; [injection H as <- <- <-; first [pos|now elim N]|]). destruct H.
  - intros k r b H R. cbn in H. repeat (destruct H as [H|H]; [first [discriminate H|injection H as <- <-]|]); try destruct H.
    + destruct R as [(g & R)|[_ R]]; [|exfalso; apply (R "STOCK" (q 40 1)); now left]. cbn in R. repeat (destruct R as [R|R]; [first [discriminate R|injection R as _ <-; pos]|]). destruct R.
    + destruct R as [(g & R)|[_ R]]; [|exfalso; apply (R "STOCK" (q 20 1)); right; now left]. cbn in R. repeat (destruct R as [R|R]; [first [discriminate R|injection R as _ <-; pos]|]). destruct R.
  - intros g r v [].
  - intros t g c H. cbn in H. destruct H as [H|[]]. injection H as <- <- <-. cbn. pos.
  - intros c H. cbn in H. destruct H as [<-|[<-|[<-|[]]]]; eexists; cbn; intuition.
  - intros c H. cbn in H. destruct H as [<-|[<-|[<-|[]]]]; right; exists "WOOD"; eexists; (split; [discriminate|]); cbn; intuition.
Qed.
Lemma cover_text_covering : file_covering cover_text_file.
Proof.
  constructor.
  - reflexivity.
  - intros k r H. cbn in H. repeat (destruct H as [H|H]; [first [discriminate H|injection H as <- <-]|]); try destruct H; (split; [reflexivity|]); exists "BREAD"; eexists; cbn; intuition.
  - intros c r v H. cbn in H. repeat (destruct H as [H|H]; [injection H as <- <- <-; pos|]). destruct H.
  - intros g r v [].
  - reflexivity.
  - intros c H. cbn in H. destruct H as [<-|[<-|[]]]; eexists; cbn; intuition.
Qed.
Definition pack_text_answer : answer := Solved_to (mk_solution (q (-135) 2) [("CHAIR", q 10 1); ("TABLE", q 15 2); ("SHELF", q 0 1)]).
Lemma pack_text_presolved b n : presolve_text b UseRows n 60 pack_text = Got (Ok pack_text_answer).
Proof. apply text_answer_ok. destruct b, n; vm_compute; reflexivity. Qed.
Definition cover_text_answer : answer := Solved_to (mk_solution (q 10 1) [("BREAD", q 2 1); ("BEANS", q 2 1)]).
Lemma cover_text_presolved b n : presolve_text b UseRows n 60 cover_text = Got (Ok cover_text_answer).
Proof. apply text_answer_ok. destruct b, n; vm_compute; reflexivity. Qed.
(** the second one is in fixed format as well *)
Lemma cover_fixed_ok : fixed_ok cover_text_file.
Proof.
  constructor; cbn [cover_text_file f_name f_sense f_rows f_columns f_rhs f_ranges f_bounds].
  - exact (file_ok_rules _ cover_text_ok).
  - intros k r H. cbn in H. repeat (destruct H as [H|H]; [injection H as <- <-; split; [now apply fixed_nameb_ok|split; discriminate]|]). destruct H.
  - intros c values H. cbn in H. repeat (destruct H as [H|H]; [first [discriminate H|injection H as <- <-; split; [now apply fixed_nameb_ok|now apply fixed_firstb_ok]]|]). destruct H.
  - intros g values H. cbn in H. repeat (destruct H as [H|H]; [injection H as <- <-; split; [now apply fixed_nameb_ok|left; now apply fixed_firstb_ok]|]). destruct H.
  - intros g values [].
  - intros t g c [].
Qed.
Lemma cover_fixed_spelled : fixed_spells cover_text cover_text_file.
Proof.
  assert (T : text_of (into_lines cover_text) cover_text) by (apply text_split; vm_compute; reflexivity).
  exists (into_lines cover_text). split; [|exact T]. clear T.
  exists "          COVER", [], (firstn 3 (skipn 2 (into_lines cover_text))), (firstn 1 (skipn 1 (into_lines cover_text))), (firstn 3 (skipn 6 (into_lines cover_text))), (firstn 2 (skipn 9 (into_lines cover_text))), [], [].
  split; [apply (spaced_split "          COVER"); reflexivity|].
  split; [vm_compute; exists ""; split; [intros x []|reflexivity]|].
  split; [vm_compute; repeat (constructor; [exists 0%nat; reflexivity|]); constructor|].
  split.
  { set (ls := firstn 3 _). vm_compute in ls. subst ls. cbn [cover_text_file f_columns].
    constructor; [exists 0%nat; exists "2", "1"; split; [snum false [2%nat] (@None (list nat))|]; split; [snum false [1%nat] (@None (list nat))|reflexivity]|].
    constructor; [exists 0%nat; exists "3"; split; [snum false [3%nat] (@None (list nat))|reflexivity]|].
    constructor; [exists 0%nat; exists "3", "2"; split; [snum false [3%nat] (@None (list nat))|]; split; [snum false [2%nat] (@None (list nat))|reflexivity]|]. constructor. }
  split.
  { right. set (ls := firstn 2 (skipn 9 _)). vm_compute in ls. subst ls. eexists. split; [reflexivity|]. cbn [cover_text_file f_rhs].
    constructor; [exists 0%nat; exists "6", "6"; split; [snum false [6%nat] (@None (list nat))|]; split; [snum false [6%nat] (@None (list nat))|reflexivity]|]. constructor. }
  split; [left; now split|]. split; [left; now split|vm_compute; reflexivity].
Qed.
Lemma cover_fixed_presolved b n : presolve_fixed_text b UseRows n 60 cover_text = Got (Ok cover_text_answer).
Proof. apply text_answer_ok. destruct b, n; vm_compute; reflexivity. Qed.
