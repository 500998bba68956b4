(** * A column measured in other units *)
From Verif Require Import SpecUnits OrderP UnitsP TextP FileP ExParse Examples ExGeneral ExFile ExTextPresolve ExOrder.
Local Open Scope string_scope.
Local Open Scope list_scope.

(** the program of ExOrder.v with the column YTWO measured in units that are twice as large *)
Definition wider : string := "NAME LOOSER
ROWS
 N COST
 L LIM1
 E MYEQN
COLUMNS
 XONE COST 1 LIM1 1
 YTWO COST 8 LIM1 2
 YTWO MYEQN -2
 ZTHREE COST 0.5 MYEQN 1
RHS
 RHS1 LIM1 5 MYEQN 7
RANGES
 RNG1 LIM1 2.5
BOUNDS
 UP BND1 XONE 4
 LO BND1 YTWO -0.5
 UP BND1 YTWO 1
 FR BND1 ZTHREE
ENDATA
".
Lemma wider_ok : file_ok (scale_column (q 2 1) "YTWO" looser_file).
Proof.
  constructor; cbn [scale_column looser_file f_name f_sense f_rows f_columns f_rhs f_ranges f_bounds].
  - now apply name_okb_ok.
  - intros k r H. cbn in H. repeat (destruct H as [H|H]; [injection H as <- <-; split; [now apply name_okb_ok|discriminate]|]). destruct H.
  - cbn. repeat constructor; cbn; intuition discriminate.
  - intros c values H. cbn in H. repeat (destruct H as [H|H]; [first [discriminate H|injection H as <- <-; now apply first_okb_ok]|]). destruct H.
  - cbn. repeat constructor; cbn; intuition discriminate.
  - cbn. repeat constructor; cbn; intuition discriminate.
  - intros g values H. cbn in H. repeat (destruct H as [H|H]; [injection H as <- <-; now apply first_okb_ok|]). destruct H.
  - cbn. repeat constructor; cbn; intuition discriminate.
  - intros g values H. cbn in H. repeat (destruct H as [H|H]; [injection H as <- <-; now apply first_okb_ok|]). destruct H.
  - cbn. repeat constructor; cbn; intuition discriminate.
  - intros t g c H. cbn in H. repeat (destruct H as [H|H]; [injection H as <- <- <-; split; [now apply name_okb_ok|intros X; exact X]|]). destruct H.
  - exists "COST". split; [now left|]. intros c H. cbn in H. repeat (destruct H as [H|H]; [first [discriminate H|now injection H as <-]|]). destruct H.
  - intros c r v H. assert (E : exists v', In (c, r, v') (coefficients looser_file)) by (cbn in H |- *; repeat (destruct H as [H|H]; [injection H; intros; subst; eexists; tauto|]); destruct H). destruct E as [v' E]. exact (fo_coefficient_rows _ looser_ok c r v' E).
  - intros c r v H. assert (E : In r ["LIM1"; "MYEQN"]) by (cbn in H; repeat (destruct H as [H|H]; [injection H; intros; subst; cbn; tauto|]); destruct H). exact E.
  - intros c r v H. assert (E : In r ["LIM1"; "MYEQN"]) by (cbn in H; repeat (destruct H as [H|H]; [injection H; intros; subst; cbn; tauto|]); destruct H). exact E.
  - intros t g c H. cbn in H. repeat (destruct H as [H|H]; [injection H as <- <- <-; cbn; tauto|]). destruct H.
Qed.
Lemma wider_spelled : spells wider (scale_column (q 2 1) "YTWO" looser_file).
Proof.
  assert (T : text_of (into_lines wider) wider) by (apply text_split; vm_compute; reflexivity).
  exists (into_lines wider). split; [|exact T]. clear T.
  exists " LOOSER", [], (firstn 3 (skipn 2 (into_lines wider))), ["ROWS"], (firstn 4 (skipn 6 (into_lines wider))), (firstn 2 (skipn 10 (into_lines wider))),
    (firstn 2 (skipn 12 (into_lines wider))), (firstn 5 (skipn 14 (into_lines wider))).
  split; [apply (spaced_split " LOOSER"); reflexivity|].
  split; [exists ""; split; [intros x []|reflexivity]|].
  split; [vm_compute; repeat (constructor; [dline|]); constructor|].
  split.
  { set (ls := firstn 4 (skipn 6 _)). vm_compute in ls. subst ls. cbn [scale_column map looser_file f_columns].
    constructor; [split; [now right|]; eexists; split; [constructor; [num false [1%nat] (@None (list nat))|constructor; [num false [1%nat] (@None (list nat))|constructor]]|dline]|].
    constructor; [split; [now right|]; eexists; split; [constructor; [num false [8%nat] (@None (list nat))|constructor; [num false [2%nat] (@None (list nat))|constructor]]|dline]|].
    constructor; [split; [now left|]; eexists; split; [constructor; [num true [2%nat] (@None (list nat))|constructor]|dline]|].
    constructor; [split; [now right|]; eexists; split; [constructor; [num false [0%nat] (Some [5%nat])|constructor; [num false [1%nat] (@None (list nat))|constructor]]|dline]|]. constructor. }
  split.
  { right. set (ls := firstn 2 (skipn 10 _)). vm_compute in ls. subst ls. eexists. split; [reflexivity|]. cbn [scale_column looser_file f_rhs].
    constructor; [split; [now right|]; eexists; split; [constructor; [num false [5%nat] (@None (list nat))|constructor; [num false [7%nat] (@None (list nat))|constructor]]|dline]|]. constructor. }
  split.
  { right. set (ls := firstn 2 (skipn 12 _)). vm_compute in ls. subst ls. eexists. split; [reflexivity|]. cbn [scale_column looser_file f_ranges].
    constructor; [split; [now left|]; eexists; split; [constructor; [num false [2%nat] (Some [5%nat])|constructor]|dline]|]. constructor. }
  split; [|vm_compute; reflexivity].
  right. set (ls := firstn 5 (skipn 14 _)). vm_compute in ls. subst ls. eexists. split; [reflexivity|]. cbn [scale_column looser_file f_bounds].
  constructor; [eexists; split; [eexists; split; [num false [4%nat] (@None (list nat))|reflexivity]|dline]|].
  constructor; [eexists; split; [eexists; split; [num true [0%nat] (Some [5%nat])|reflexivity]|dline]|].
  constructor; [eexists; split; [eexists; split; [num false [1%nat] (@None (list nat))|reflexivity]|dline]|].
  constructor; [eexists; split; [reflexivity|dline]|].
  constructor.
Qed.
Lemma looser_no_binary : forall g, ~ In (Binary, g, "YTWO") (f_bounds looser_file).
Proof. intros g H. cases H; discriminate H. Qed.
Definition wider_answer : answer := Solved_to (mk_solution (q 5 2) [("XONE", q 7 2); ("YTWO", q (-1) 2); ("ZTHREE", q 6 1)]).
Lemma wider_solved b r n : solve_text b r n 40 wider = Got (Ok wider_answer).
Proof. apply text_answer_ok. destruct b, r, n; vm_compute; reflexivity. Qed.
Lemma wider_answered : answered (scale_column (q 2 1) "YTWO" looser_file) wider_answer.
Proof. exact (from_free _ _ Checked UseRows FirstProfitable 40 wider wider_ok wider_spelled (wider_solved _ _ _)). Qed.
(** it has one optimum *)
Lemma looser_only : only_optimum looser_file.
Proof.
  assert (U : forall x, foptimal looser_file x -> x "XONE" = q 7 2 /\ x "YTWO" = q (-1) 1 /\ x "ZTHREE" = q 6 1).
  { intros x [F O]. specialize (O (answer_at (mk_solution (q 5 2) [("XONE", q 7 2); ("YTWO", q (-1) 1); ("ZTHREE", q 6 1)])) (proj1 (proj1 (answered_right looser_file looser_answer looser_solvable (proj1 (proj2 (proj2 case_answered))))))).
    destruct F as [A B]. pose proof (A KLess "LIM1" (or_intror (or_introl eq_refl)) (q 5 1) (or_introl (ex_intro _ "RHS1" (or_introl eq_refl)))) as [_ L]. specialize (L (q 5 2) (ex_intro _ "RNG1" (or_introl eq_refl))).
    pose proof (A KEqual "MYEQN" (or_intror (or_intror (or_introl eq_refl))) (q 7 1) (or_introl (ex_intro _ "RHS1" (or_intror (or_introl eq_refl))))) as [M _].
    assert (NR : forall w, ~ frange looser_file "MYEQN" w) by (intros w [g W]; cases W; discriminate W). specialize (M NR).
    pose proof (proj1 (B "YTWO" (or_intror (or_introl eq_refl))) _ "BND1" (or_intror (or_introl eq_refl))) as Y.
    unfold range_holds, plain_holds, fcost, frow_value, better, fsense, answer_at, allows, total in *. cbn in O, L, M, Y. unfold q in *.
    destruct L as [L L2]. clear A B NR. repeat split; qlra. }
  intros x y X Y c C. destruct (U x X) as (X1 & X2 & X3), (U y Y) as (Y1 & Y2 & Y3). cbn in C. destruct C as [<-|[<-|[<-|[]]]]; congruence.
Qed.

(** the program of ExOrder.v with another constraint, which follows from the first one *)
Definition crowded : string := "NAME CROWDED
ROWS
 N COST
 L LIM1
 E MYEQN
 L EXTRA
COLUMNS
 XONE COST 1 LIM1 1
 XONE EXTRA 1
 YTWO COST 4 LIM1 1
 YTWO MYEQN -1 EXTRA 1
 ZTHREE COST 0.5 MYEQN 1
RHS
 RHS1 LIM1 5 MYEQN 7
 RHS1 EXTRA 6
RANGES
 RNG1 LIM1 2.5
BOUNDS
 UP BND1 XONE 4
 LO BND1 YTWO -1
 UP BND1 YTWO 2
 FR BND1 ZTHREE
ENDATA
".
Definition crowded_file : file := {|
  f_name := "CROWDED";
  f_sense := None;
  f_rows := [(None, "COST"); (Some KLess, "LIM1"); (Some KEqual, "MYEQN"); (Some KLess, "EXTRA")];
  f_columns := [
    Entries "XONE" [("COST", q 1 1); ("LIM1", q 1 1)]; Entries "XONE" [("EXTRA", q 1 1)];
    Entries "YTWO" [("COST", q 4 1); ("LIM1", q 1 1)]; Entries "YTWO" [("MYEQN", q (-1) 1); ("EXTRA", q 1 1)];
    Entries "ZTHREE" [("COST", q 1 2); ("MYEQN", q 1 1)]];
  f_rhs := [("RHS1", [("LIM1", q 5 1); ("MYEQN", q 7 1)]); ("RHS1", [("EXTRA", q 6 1)])];
  f_ranges := [("RNG1", [("LIM1", q 5 2)])];
  f_bounds := [(UpperContinuous (q 4 1), "BND1", "XONE"); (LowerContinuous (q (-1) 1), "BND1", "YTWO"); (UpperContinuous (q 2 1), "BND1", "YTWO"); (Free, "BND1", "ZTHREE")]
|}.
Lemma crowded_ok : file_ok crowded_file.
Proof.
  constructor; cbn [crowded_file f_name f_sense f_rows f_columns f_rhs f_ranges f_bounds].
  - now apply name_okb_ok.
  - intros k r H. cbn in H. repeat (destruct H as [H|H]; [injection H as <- <-; split; [now apply name_okb_ok|discriminate]|]). destruct H.
  - cbn. repeat constructor; cbn; intuition discriminate.
  - intros c values H. cbn in H. repeat (destruct H as [H|H]; [first [discriminate H|injection H as <- <-; now apply first_okb_ok]|]). destruct H.
  - cbn. repeat constructor; cbn; intuition discriminate.
  - cbn. repeat constructor; cbn; intuition discriminate.
  - intros g values H. cbn in H. repeat (destruct H as [H|H]; [injection H as <- <-; now apply first_okb_ok|]). destruct H.
  - cbn. repeat constructor; cbn; intuition discriminate.
  - intros g values H. cbn in H. repeat (destruct H as [H|H]; [injection H as <- <-; now apply first_okb_ok|]). destruct H.
  - cbn. repeat constructor; cbn; intuition discriminate.
  - intros t g c H. cbn in H. repeat (destruct H as [H|H]; [injection H as <- <- <-; split; [now apply name_okb_ok|intros X; exact X]|]). destruct H.
  - exists "COST". split; [now left|]. intros c H. cbn in H. repeat (destruct H as [H|H]; [first [discriminate H|now injection H as <-]|]). destruct H.
  - intros c r v H. cbn in H. repeat (destruct H as [H|H]; [injection H as <- <- <-; cbn; tauto|]). destruct H.
  - intros c r v H. cbn in H. repeat (destruct H as [H|H]; [injection H as <- <- <-; cbn; tauto|]). destruct H.
  - intros c r v H. cbn in H. repeat (destruct H as [H|H]; [injection H as <- <- <-; cbn; tauto|]). destruct H.
  - intros t g c H. cbn in H. repeat (destruct H as [H|H]; [injection H as <- <- <-; cbn; tauto|]). destruct H.
Qed.
Lemma crowded_spelled : spells crowded crowded_file.
Proof.
  assert (T : text_of (into_lines crowded) crowded) by (apply text_split; vm_compute; reflexivity).
  exists (into_lines crowded). split; [|exact T]. clear T.
  exists " CROWDED", [], (firstn 4 (skipn 2 (into_lines crowded))), ["ROWS"], (firstn 5 (skipn 7 (into_lines crowded))), (firstn 3 (skipn 12 (into_lines crowded))),
    (firstn 2 (skipn 15 (into_lines crowded))), (firstn 5 (skipn 17 (into_lines crowded))).
  split; [apply (spaced_split " CROWDED"); reflexivity|].
  split; [exists ""; split; [intros x []|reflexivity]|].
  split; [vm_compute; repeat (constructor; [dline|]); constructor|].
  split.
  { set (ls := firstn 5 (skipn 7 _)). vm_compute in ls. subst ls. cbn [crowded_file f_columns].
    constructor; [split; [now right|]; eexists; split; [constructor; [num false [1%nat] (@None (list nat))|constructor; [num false [1%nat] (@None (list nat))|constructor]]|dline]|].
    constructor; [split; [now left|]; eexists; split; [constructor; [num false [1%nat] (@None (list nat))|constructor]|dline]|].
    constructor; [split; [now right|]; eexists; split; [constructor; [num false [4%nat] (@None (list nat))|constructor; [num false [1%nat] (@None (list nat))|constructor]]|dline]|].
    constructor; [split; [now right|]; eexists; split; [constructor; [num true [1%nat] (@None (list nat))|constructor; [num false [1%nat] (@None (list nat))|constructor]]|dline]|].
    constructor; [split; [now right|]; eexists; split; [constructor; [num false [0%nat] (Some [5%nat])|constructor; [num false [1%nat] (@None (list nat))|constructor]]|dline]|]. constructor. }
  split.
  { right. set (ls := firstn 3 (skipn 12 _)). vm_compute in ls. subst ls. eexists. split; [reflexivity|]. cbn [crowded_file f_rhs].
    constructor; [split; [now right|]; eexists; split; [constructor; [num false [5%nat] (@None (list nat))|constructor; [num false [7%nat] (@None (list nat))|constructor]]|dline]|].
    constructor; [split; [now left|]; eexists; split; [constructor; [num false [6%nat] (@None (list nat))|constructor]|dline]|]. constructor. }
  split.
  { right. set (ls := firstn 2 (skipn 15 _)). vm_compute in ls. subst ls. eexists. split; [reflexivity|]. cbn [crowded_file f_ranges].
    constructor; [split; [now left|]; eexists; split; [constructor; [num false [2%nat] (Some [5%nat])|constructor]|dline]|]. constructor. }
  split; [|vm_compute; reflexivity].
  right. set (ls := firstn 5 (skipn 17 _)). vm_compute in ls. subst ls. eexists. split; [reflexivity|]. cbn [crowded_file f_bounds].
  constructor; [eexists; split; [eexists; split; [num false [4%nat] (@None (list nat))|reflexivity]|dline]|].
  constructor; [eexists; split; [eexists; split; [num true [1%nat] (@None (list nat))|reflexivity]|dline]|].
  constructor; [eexists; split; [eexists; split; [num false [2%nat] (@None (list nat))|reflexivity]|dline]|].
  constructor; [eexists; split; [reflexivity|dline]|]. constructor.
Qed.
Lemma crowded_solvable : file_solvable crowded_file.
Proof.
  constructor.
  - exact (file_ok_rules _ crowded_ok).
  - intros c r v H. cbn in H. repeat (destruct H as [H|H]; [injection H as <- <- <-; intros Z; apply qeqb_true in Z; vm_compute in Z; discriminate Z|]). destruct H.
  - cbn. repeat constructor; cbn; intuition discriminate.
  - intros g r v H. cbn in H. destruct H as [H|[]]. injection H as <- <- <-. exists "RHS1", (q 5 1). now left.
  - intros t g g' c H. cbn in H. repeat (destruct H as [H|H]; [first [discriminate H|injection H as <- <-]|]); [|destruct H]. intros H. cbn in H. repeat (destruct H as [H|H]; [first [discriminate H|now injection H as <-]|]). destruct H.
  - intros c H. cbn in H. destruct H as [<-|[<-|[<-|[]]]].
    + exists 0%Qc. split; [|intros _; apply Qcle_refl]. intros t g T. cbn in T. repeat (destruct T as [T|T]; [first [discriminate T|injection T as <- <-; cbn; discriminate]|]). destruct T.
    + exists 0%Qc. split; [|intros _; apply Qcle_refl]. intros t g T. cbn in T. repeat (destruct T as [T|T]; [first [discriminate T|injection T as <- <-; cbn; discriminate]|]). destruct T.
    + exists 0%Qc. split; [|intros _; apply Qcle_refl]. intros t g T. cbn in T. repeat (destruct T as [T|T]; [first [discriminate T|injection T as <- <-; exact I]|]). destruct T.
Qed.
Lemma crowded_solved b r n : solve_text b r n 40 crowded = Got (Ok looser_answer).
Proof. apply text_answer_ok. destruct b, r, n; vm_compute; reflexivity. Qed.
Lemma crowded_answered : answered crowded_file looser_answer.
Proof. exact (from_free _ _ Checked UseRows FirstProfitable 40 crowded crowded_ok crowded_spelled (crowded_solved _ _ _)). Qed.
Lemma crowded_relaxed : relaxed crowded_file looser_file.
Proof.
  constructor.
  - reflexivity.
  - intros k r H. cases H; try discriminate H; injection H as <- <-; inn.
  - intros r H. cases H; subst; reflexivity.
  - reflexivity.
  - intros k r b H. cases H; try discriminate H; injection H as <- <-; split; intros (g & G); cases G; try discriminate G; injection G as <- <-; exists "RHS1"; inn.
  - intros k r b H. cases H; try discriminate H; injection H as <- <-; split; intros (g & G); cases G; try discriminate G; injection G as <- <-; exists "RNG1"; inn.
  - intros c H. cases H; subst; inn.
  - intros c v H A. exact A.
Qed.
Lemma crowded_implied x : ffeasible looser_file x -> ffeasible crowded_file x.
Proof.
  intros [A B]. split; [|exact B]. intros k r I. cases I; try discriminate I; injection I as <- <-.
  - intros b R. assert (E : b = q 5 1) by (destruct R as [[g R]|[_ N]]; [cases R; try discriminate R; congruence|elim (N "RHS1" (q 5 1)); inn]). subst b.
    destruct (A KLess "LIM1" (or_intror (or_introl eq_refl)) (q 5 1) (or_introl (ex_intro _ "RHS1" (or_introl eq_refl)))) as [P Q]. split.
    + intros N. elim (N (q 5 2)). exists "RNG1". inn.
    + intros w [g W]. cases W. assert (E : w = q 5 2) by congruence. subst w. specialize (Q (q 5 2) (ex_intro _ "RNG1" (or_introl eq_refl))).
      unfold range_holds, frow_value, total in *. cbn in Q |- *. unfold q in *. destruct Q as [Q Q']. split; qlra.
  - intros b R. assert (E : b = q 7 1) by (destruct R as [[g R]|[_ N]]; [cases R; try discriminate R; congruence|elim (N "RHS1" (q 7 1)); inn]). subst b.
    destruct (A KEqual "MYEQN" (or_intror (or_intror (or_introl eq_refl))) (q 7 1) (or_introl (ex_intro _ "RHS1" (or_intror (or_introl eq_refl))))) as [P _]. split.
    + intros _. assert (NR : forall w, ~ frange looser_file "MYEQN" w) by (intros w [g W]; cases W; discriminate W). specialize (P NR).
      unfold plain_holds, frow_value, total in *. cbn in P |- *. unfold q in *. qlra.
    + intros w [g W]. cases W. discriminate W.
  - intros b R. assert (E : b = q 6 1) by (destruct R as [[g R]|[_ N]]; [cases R; try discriminate R; congruence|elim (N "RHS1" (q 6 1)); inn]). subst b.
    destruct (A KLess "LIM1" (or_intror (or_introl eq_refl)) (q 5 1) (or_introl (ex_intro _ "RHS1" (or_introl eq_refl)))) as [_ Q]. split.
    + intros _. specialize (Q (q 5 2) (ex_intro _ "RNG1" (or_introl eq_refl))). unfold range_holds, plain_holds, frow_value, total in *. cbn in Q |- *. unfold q in *. destruct Q as [Q Q']. qlra.
    + intros w [g W]. cases W. discriminate W.
Qed.
Lemma small_only : only_optimum small_file.
Proof.
  assert (U : forall x, foptimal small_file x -> x "XONE" = q 4 1 /\ x "YTWO" = q (-1) 1 /\ x "ZTHREE" = q 6 1).
  { intros x [F O]. specialize (O (answer_at (mk_solution (q 3 1) [("XONE", q 4 1); ("YTWO", q (-1) 1); ("ZTHREE", q 6 1)])) (proj1 (proj1 (answered_right small_file small_answer small_solvable (proj1 case_answered))))).
    destruct F as [A B]. pose proof (A KGreater "LIM2" (or_intror (or_intror (or_introl eq_refl))) (q 10 1) (or_introl (ex_intro _ "RHS1" (or_intror (or_introl eq_refl))))) as [L _].
    assert (NL : forall w, ~ frange small_file "LIM2" w) by (intros w [g W]; cases W; discriminate W). specialize (L NL).
    pose proof (A KEqual "MYEQN" (or_intror (or_intror (or_intror (or_introl eq_refl)))) (q 7 1) (or_introl (ex_intro _ "RHS1" (or_intror (or_intror (or_introl eq_refl)))))) as [M _].
    assert (NR : forall w, ~ frange small_file "MYEQN" w) by (intros w [g W]; cases W; discriminate W). specialize (M NR).
    pose proof (proj1 (B "YTWO" (or_intror (or_introl eq_refl))) _ "BND1" (or_intror (or_introl eq_refl))) as Y.
    pose proof (proj1 (B "XONE" (or_introl eq_refl)) _ "BND1" (or_introl eq_refl)) as X.
    unfold range_holds, plain_holds, fcost, frow_value, better, fsense, answer_at, allows, total in *. cbn in O, L, M, X, Y. unfold q in *.
    clear A B NL NR. repeat split; qlra. }
  intros x y X Y c C. destruct (U x X) as (X1 & X2 & X3), (U y Y) as (Y1 & Y2 & Y3). cbn in C. destruct C as [<-|[<-|[<-|[]]]]; congruence.
Qed.

(** the program of ExOrder.v with 2 - YTWO instead of YTWO *)
Definition turned : string := "NAME TURNED
ROWS
 N COST
 L LIM1
 E MYEQN
COLUMNS
 XONE COST 1 LIM1 1
 YTWO COST -4 LIM1 -1
 YTWO MYEQN 1
 ZTHREE COST 0.5 MYEQN 1
RHS
 RHS1 LIM1 3 MYEQN 9
RANGES
 RNG1 LIM1 2.5
BOUNDS
 UP BND1 XONE 4
 UP BND1 YTWO 3
 FR BND1 ZTHREE
ENDATA
".
Definition turned_file : file := {|
  f_name := "TURNED";
  f_sense := None;
  f_rows := [(None, "COST"); (Some KLess, "LIM1"); (Some KEqual, "MYEQN")];
  f_columns := [
    Entries "XONE" [("COST", q 1 1); ("LIM1", q 1 1)];
    Entries "YTWO" [("COST", q (-4) 1); ("LIM1", q (-1) 1)]; Entries "YTWO" [("MYEQN", q 1 1)];
    Entries "ZTHREE" [("COST", q 1 2); ("MYEQN", q 1 1)]];
  f_rhs := [("RHS1", [("LIM1", q 3 1); ("MYEQN", q 9 1)])];
  f_ranges := [("RNG1", [("LIM1", q 5 2)])];
  f_bounds := [(UpperContinuous (q 4 1), "BND1", "XONE"); (UpperContinuous (q 3 1), "BND1", "YTWO"); (Free, "BND1", "ZTHREE")]
|}.
Lemma turned_ok : file_ok turned_file.
Proof.
  constructor; cbn [turned_file f_name f_sense f_rows f_columns f_rhs f_ranges f_bounds].
  - now apply name_okb_ok.
  - intros k r H. cbn in H. repeat (destruct H as [H|H]; [injection H as <- <-; split; [now apply name_okb_ok|discriminate]|]). destruct H.
  - cbn. repeat constructor; cbn; intuition discriminate.
  - intros c values H. cbn in H. repeat (destruct H as [H|H]; [first [discriminate H|injection H as <- <-; now apply first_okb_ok]|]). destruct H.
  - cbn. repeat constructor; cbn; intuition discriminate.
  - cbn. repeat constructor; cbn; intuition discriminate.
  - intros g values H. cbn in H. repeat (destruct H as [H|H]; [injection H as <- <-; now apply first_okb_ok|]). destruct H.
  - cbn. repeat constructor; cbn; intuition discriminate.
  - intros g values H. cbn in H. repeat (destruct H as [H|H]; [injection H as <- <-; now apply first_okb_ok|]). destruct H.
  - cbn. repeat constructor; cbn; intuition discriminate.
  - intros t g c H. cbn in H. repeat (destruct H as [H|H]; [injection H as <- <- <-; split; [now apply name_okb_ok|intros X; exact X]|]). destruct H.
  - exists "COST". split; [now left|]. intros c H. cbn in H. repeat (destruct H as [H|H]; [first [discriminate H|now injection H as <-]|]). destruct H.
  - intros c r v H. cbn in H. repeat (destruct H as [H|H]; [injection H as <- <- <-; cbn; tauto|]). destruct H.
  - intros c r v H. cbn in H. repeat (destruct H as [H|H]; [injection H as <- <- <-; cbn; tauto|]). destruct H.
  - intros c r v H. cbn in H. repeat (destruct H as [H|H]; [injection H as <- <- <-; cbn; tauto|]). destruct H.
  - intros t g c H. cbn in H. repeat (destruct H as [H|H]; [injection H as <- <- <-; cbn; tauto|]). destruct H.
Qed.
Lemma turned_spelled : spells turned turned_file.
Proof.
  assert (T : text_of (into_lines turned) turned) by (apply text_split; vm_compute; reflexivity).
  exists (into_lines turned). split; [|exact T]. clear T.
  exists " TURNED", [], (firstn 3 (skipn 2 (into_lines turned))), ["ROWS"], (firstn 4 (skipn 6 (into_lines turned))), (firstn 2 (skipn 10 (into_lines turned))),
    (firstn 2 (skipn 12 (into_lines turned))), (firstn 4 (skipn 14 (into_lines turned))).
  split; [apply (spaced_split " TURNED"); reflexivity|].
  split; [exists ""; split; [intros x []|reflexivity]|].
  split; [vm_compute; repeat (constructor; [dline|]); constructor|].
  split.
  { set (ls := firstn 4 _). vm_compute in ls. subst ls. cbn [turned_file f_columns].
    constructor; [split; [now right|]; eexists; split; [constructor; [num false [1%nat] (@None (list nat))|constructor; [num false [1%nat] (@None (list nat))|constructor]]|dline]|].
    constructor; [split; [now right|]; eexists; split; [constructor; [num true [4%nat] (@None (list nat))|constructor; [num true [1%nat] (@None (list nat))|constructor]]|dline]|].
    constructor; [split; [now left|]; eexists; split; [constructor; [num false [1%nat] (@None (list nat))|constructor]|dline]|].
    constructor; [split; [now right|]; eexists; split; [constructor; [num false [0%nat] (Some [5%nat])|constructor; [num false [1%nat] (@None (list nat))|constructor]]|dline]|]. constructor. }
  split.
  { right. set (ls := firstn 2 (skipn 10 _)). vm_compute in ls. subst ls. eexists. split; [reflexivity|]. cbn [turned_file f_rhs].
    constructor; [split; [now right|]; eexists; split; [constructor; [num false [3%nat] (@None (list nat))|constructor; [num false [9%nat] (@None (list nat))|constructor]]|dline]|]. constructor. }
  split.
  { right. set (ls := firstn 2 (skipn 12 _)). vm_compute in ls. subst ls. eexists. split; [reflexivity|]. cbn [turned_file f_ranges].
    constructor; [split; [now left|]; eexists; split; [constructor; [num false [2%nat] (Some [5%nat])|constructor]|dline]|]. constructor. }
  split; [|vm_compute; reflexivity].
  right. set (ls := firstn 4 (skipn 14 _)). vm_compute in ls. subst ls. eexists. split; [reflexivity|]. cbn [turned_file f_bounds].
  constructor; [eexists; split; [eexists; split; [num false [4%nat] (@None (list nat))|reflexivity]|dline]|].
  constructor; [eexists; split; [eexists; split; [num false [3%nat] (@None (list nat))|reflexivity]|dline]|].
  constructor; [eexists; split; [reflexivity|dline]|]. constructor.
Qed.
Lemma turned_solvable : file_solvable turned_file.
Proof.
  constructor.
  - exact (file_ok_rules _ turned_ok).
  - intros c r v H. cbn in H. repeat (destruct H as [H|H]; [injection H as <- <- <-; intros Z; apply qeqb_true in Z; vm_compute in Z; discriminate Z|]). destruct H.
  - cbn. repeat constructor; cbn; intuition discriminate.
  - intros g r v H. cbn in H. destruct H as [H|[]]. injection H as <- <- <-. exists "RHS1", (q 3 1). now left.
  - intros t g g' c H. cbn in H. repeat (destruct H as [H|H]; [first [discriminate H|injection H as <- <-]|]); [|destruct H]. intros H. cbn in H. repeat (destruct H as [H|H]; [first [discriminate H|now injection H as <-]|]). destruct H.
  - intros c H. cbn in H. destruct H as [<-|[<-|[<-|[]]]].
    + exists 0%Qc. split; [|intros _; apply Qcle_refl]. intros t g T. cbn in T. repeat (destruct T as [T|T]; [first [discriminate T|injection T as <- <-; cbn; discriminate]|]). destruct T.
    + exists 0%Qc. split; [|intros _; apply Qcle_refl]. intros t g T. cbn in T. repeat (destruct T as [T|T]; [first [discriminate T|injection T as <- <-; cbn; discriminate]|]). destruct T.
    + exists 0%Qc. split; [|intros _; apply Qcle_refl]. intros t g T. cbn in T. repeat (destruct T as [T|T]; [first [discriminate T|injection T as <- <-; exact I]|]). destruct T.
Qed.
Definition turned_answer : answer := Solved_to (mk_solution (q (-11) 2) [("XONE", q 7 2); ("YTWO", q 3 1); ("ZTHREE", q 6 1)]).
Lemma turned_solved b r n : solve_text b r n 40 turned = Got (Ok turned_answer).
Proof. apply text_answer_ok. destruct b, r, n; vm_compute; reflexivity. Qed.
Lemma turned_answered : answered turned_file turned_answer.
Proof. exact (from_free _ _ Checked UseRows FirstProfitable 40 turned turned_ok turned_spelled (turned_solved _ _ _)). Qed.
Lemma turned_substituted : substituted (q (-1) 1) (q 2 1) "YTWO" looser_file turned_file.
Proof.
  constructor.
  - reflexivity.
  - reflexivity.
  - cbn. repeat (f_equal; [repeat f_equal; apply Qc_is_canon; vm_compute; reflexivity|]). reflexivity.
  - intros c. reflexivity.
  - intros kd r b I. cases I; try discriminate I; injection I as <- <-; unfold frhs, coefficient_of, total; cbn.
    + split; (intros [[g G]|[_ N]]; [cases G; try discriminate G|elim (N "RHS1" _ (or_introl eq_refl))]); left; exists "RHS1"; left; f_equal; assert (E := f_equal snd G); cbn in E; unfold q in *; qlra.
    + split; (intros [[g G]|[_ N]]; [cases G; try discriminate G|elim (N "RHS1" _ (or_intror (or_introl eq_refl)))]); left; exists "RHS1"; right; left; f_equal; assert (E := f_equal snd G); cbn in E; unfold q in *; qlra.
  - intros r v. reflexivity.
  - intros c v C. cbn in C. destruct C as [<-|[<-|[<-|[]]]]; cbn.
    + split; intros [A L]; split.
      * intros t g G. cases G; try discriminate G. injection G as <- <-. apply (A _ "BND1"). inn.
      * intros _. apply L. intros t g G. cases G; try discriminate G. injection G as <- <-. exact I.
      * intros t g G. cases G; try discriminate G. injection G as <- <-. apply (A _ "BND1"). inn.
      * intros _. apply L. intros t g G. cases G; try discriminate G. injection G as <- <-. exact I.
    + split; intros [A L]; split.
      * assert (P : (0 <= v)%Qc) by (apply L; intros t g G; cases G; try discriminate G; injection G as <- <-; exact I).
        assert (Q : (v <= q 3 1)%Qc) by (apply (A (UpperContinuous (q 3 1)) "BND1"); inn).
        intros t g G. cases G; try discriminate G; injection G as <- <-; cbn; unfold q in *; qlra.
      * intros H. exfalso. apply (H (LowerContinuous (q (-1) 1)) "BND1"). inn.
      * assert (P : (q (-1) 1 <= q (-1) 1 * v + q 2 1)%Qc) by (apply (A (LowerContinuous (q (-1) 1)) "BND1"); inn).
        intros t g G. cases G; try discriminate G; injection G as <- <-; cbn; unfold q in *; qlra.
      * intros _. assert (P : (q (-1) 1 * v + q 2 1 <= q 2 1)%Qc) by (apply (A (UpperContinuous (q 2 1)) "BND1"); inn). unfold q in *. qlra.
    + split; intros [A L]; split.
      * intros t g G. cases G; try discriminate G. injection G as <- <-. exact I.
      * intros H. elim (H Free "BND1"). inn.
      * intros t g G. cases G; try discriminate G. injection G as <- <-. exact I.
      * intros H. elim (H Free "BND1"). inn.
Qed.
