(** * The program of ExOrder.v in two cases: XONE is at most 3, or at least 3 *)
From Verif Require Import SpecCases OrderP UnitsP CasesP TextP FileP ExParse Examples ExGeneral ExFile ExTextPresolve ExOrder ExUnits.
Local Open Scope string_scope.
Local Open Scope list_scope.

Definition below : string := "NAME BELOW
ROWS
 N COST
 L LIM1
 E MYEQN
COLUMNS
 XONE COST 1 LIM1 1
 YTWO COST 4 LIM1 1
 YTWO MYEQN -1
 ZTHREE COST 0.5 MYEQN 1
RHS
 RHS1 LIM1 5 MYEQN 7
RANGES
 RNG1 LIM1 2.5
BOUNDS
 UP BND1 XONE 3
 LO BND1 YTWO -1
 UP BND1 YTWO 2
 FR BND1 ZTHREE
ENDATA
".
Definition below_file : file := {|
  f_name := "BELOW";
  f_sense := None;
  f_rows := [(None, "COST"); (Some KLess, "LIM1"); (Some KEqual, "MYEQN")];
  f_columns := [
    Entries "XONE" [("COST", q 1 1); ("LIM1", q 1 1)];
    Entries "YTWO" [("COST", q 4 1); ("LIM1", q 1 1)]; Entries "YTWO" [("MYEQN", q (-1) 1)];
    Entries "ZTHREE" [("COST", q 1 2); ("MYEQN", q 1 1)]];
  f_rhs := [("RHS1", [("LIM1", q 5 1); ("MYEQN", q 7 1)])];
  f_ranges := [("RNG1", [("LIM1", q 5 2)])];
  f_bounds := [(UpperContinuous (q 3 1), "BND1", "XONE"); (LowerContinuous (q (-1) 1), "BND1", "YTWO"); (UpperContinuous (q 2 1), "BND1", "YTWO"); (Free, "BND1", "ZTHREE")]
|}.
Lemma below_ok : file_ok below_file.
Proof.
  constructor; cbn [below_file f_name f_sense f_rows f_columns f_rhs f_ranges f_bounds].
  - now apply name_okb_ok.
  - intros k r H. cbn in H. repeat (destruct H as [H|H]; [injection H as <- <-; split; [now apply name_okb_ok|discriminate]|]). destruct H.
  - cbn. repeat constructor; cbn; intuition discriminate.
  - intros c values H. cbn in H. repeat (destruct H as [H|H]; [first [discriminate H|injection H as <- <-; now apply first_okb_ok]|]). destruct H.
  - cbn. repeat constructor; cbn; intuition discriminate.
  - cbn. repeat constructor; cbn; intuition discriminate.
  - intros g values H. cbn in H. repeat (destruct H as [H|H]; [injection H as <- <-; now apply first_okb_ok|]). destruct H.
  - cbn. repeat constructor; cbn; intuition discriminate.
  - intros g values H. cbn in H. repeat (destruct H as [H|H]; [injection H as <- <-; now apply first_okb_ok|]). destruct H.
  - cbn. repeat constructor; cbn; intuition discriminate.
  - intros t g c H. cbn in H. repeat (destruct H as [H|H]; [injection H as <- <- <-; split; [now apply name_okb_ok|intros X; exact X]|]). destruct H.
  - exists "COST". split; [now left|]. intros c H. cbn in H. repeat (destruct H as [H|H]; [first [discriminate H|now injection H as <-]|]). destruct H.
  - intros c r v H. cbn in H. repeat (destruct H as [H|H]; [injection H as <- <- <-; cbn; tauto|]). destruct H.
  - intros c r v H. cbn in H. repeat (destruct H as [H|H]; [injection H as <- <- <-; cbn; tauto|]). destruct H.
  - intros c r v H. cbn in H. repeat (destruct H as [H|H]; [injection H as <- <- <-; cbn; tauto|]). destruct H.
  - intros t g c H. cbn in H. repeat (destruct H as [H|H]; [injection H as <- <- <-; cbn; tauto|]). destruct H.
Qed.
Lemma below_spelled : spells below below_file.
Proof.
  assert (T : text_of (into_lines below) below) by (apply text_split; vm_compute; reflexivity).
  exists (into_lines below). split; [|exact T]. clear T.
  exists " BELOW", [], (firstn 3 (skipn 2 (into_lines below))), ["ROWS"], (firstn 4 (skipn 6 (into_lines below))), (firstn 2 (skipn 10 (into_lines below))),
    (firstn 2 (skipn 12 (into_lines below))), (firstn 5 (skipn 14 (into_lines below))).
  split; [apply (spaced_split " BELOW"); reflexivity|].
  split; [exists ""; split; [intros x []|reflexivity]|].
  split; [vm_compute; repeat (constructor; [dline|]); constructor|].
  split.
  { set (ls := firstn 4 (skipn 6 _)). vm_compute in ls. subst ls. cbn [below_file f_columns].
    constructor; [split; [now right|]; eexists; split; [constructor; [num false [1%nat] (@None (list nat))|constructor; [num false [1%nat] (@None (list nat))|constructor]]|dline]|].
    constructor; [split; [now right|]; eexists; split; [constructor; [num false [4%nat] (@None (list nat))|constructor; [num false [1%nat] (@None (list nat))|constructor]]|dline]|].
    constructor; [split; [now left|]; eexists; split; [constructor; [num true [1%nat] (@None (list nat))|constructor]|dline]|].
    constructor; [split; [now right|]; eexists; split; [constructor; [num false [0%nat] (Some [5%nat])|constructor; [num false [1%nat] (@None (list nat))|constructor]]|dline]|].
    constructor. }
  split.
  { right. set (ls := firstn 2 (skipn 10 _)). vm_compute in ls. subst ls. eexists. split; [reflexivity|]. cbn [below_file f_rhs].
    constructor; [split; [now right|]; eexists; split; [constructor; [num false [5%nat] (@None (list nat))|constructor; [num false [7%nat] (@None (list nat))|constructor]]|dline]|].
    constructor. }
  split.
  { right. set (ls := firstn 2 (skipn 12 _)). vm_compute in ls. subst ls. eexists. split; [reflexivity|]. cbn [below_file f_ranges].
    constructor; [split; [now left|]; eexists; split; [constructor; [num false [2%nat] (Some [5%nat])|constructor]|dline]|].
    constructor. }
  split; [|vm_compute; reflexivity].
  right. set (ls := firstn 5 (skipn 14 _)). vm_compute in ls. subst ls. eexists. split; [reflexivity|]. cbn [below_file f_bounds].
  constructor; [eexists; split; [eexists; split; [num false [3%nat] (@None (list nat))|reflexivity]|dline]|].
  constructor; [eexists; split; [eexists; split; [num true [1%nat] (@None (list nat))|reflexivity]|dline]|].
  constructor; [eexists; split; [eexists; split; [num false [2%nat] (@None (list nat))|reflexivity]|dline]|].
  constructor; [eexists; split; [reflexivity|dline]|].
  constructor.
Qed.
Lemma below_solvable : file_solvable below_file.
Proof.
  constructor.
  - exact (file_ok_rules _ below_ok).
  - intros c r v H. cbn in H. repeat (destruct H as [H|H]; [injection H as <- <- <-; intros Z; apply qeqb_true in Z; vm_compute in Z; discriminate Z|]). destruct H.
  - cbn. repeat constructor; cbn; intuition discriminate.
  - intros g r v H. cbn in H. destruct H as [H|[]]. injection H as <- <- <-. exists "RHS1", (q 5 1). now left.
  - intros t g g' c H. cbn in H. repeat (destruct H as [H|H]; [first [discriminate H|injection H as <- <-]|]); [|destruct H]. intros H. cbn in H. repeat (destruct H as [H|H]; [first [discriminate H|now injection H as <-]|]). destruct H.
  - intros c H. cbn in H. repeat (destruct H as [<-|H]; [|]); [..|destruct H].
    + exists 0%Qc. split; [|intros _; apply Qcle_refl]. intros t g T. cbn in T. repeat (destruct T as [T|T]; [first [discriminate T|injection T as <- <-; cbn; discriminate]|]). destruct T.
    + exists 0%Qc. split; [|intros _; apply Qcle_refl]. intros t g T. cbn in T. repeat (destruct T as [T|T]; [first [discriminate T|injection T as <- <-; cbn; discriminate]|]). destruct T.
    + exists 0%Qc. split; [|intros _; apply Qcle_refl]. intros t g T. cbn in T. repeat (destruct T as [T|T]; [first [discriminate T|injection T as <- <-; exact I]|]). destruct T.
Qed.
Definition below_answer : answer := Solved_to (mk_solution (q 17 4) [("XONE", q 3 1); ("YTWO", q (-1) 2); ("ZTHREE", q 13 2)]).
Lemma below_solved b r n : solve_text b r n 40 below = Got (Ok below_answer).
Proof. apply text_answer_ok. destruct b, r, n; vm_compute; reflexivity. Qed.
Lemma below_answered : answered below_file below_answer.
Proof. exact (from_free _ _ Checked UseRows FirstProfitable 40 below below_ok below_spelled (below_solved _ _ _)). Qed.
Definition above : string := "NAME ABOVE
ROWS
 N COST
 L LIM1
 E MYEQN
COLUMNS
 XONE COST 1 LIM1 1
 YTWO COST 4 LIM1 1
 YTWO MYEQN -1
 ZTHREE COST 0.5 MYEQN 1
RHS
 RHS1 LIM1 5 MYEQN 7
RANGES
 RNG1 LIM1 2.5
BOUNDS
 LO BND1 XONE 3
 UP BND1 XONE 4
 LO BND1 YTWO -1
 UP BND1 YTWO 2
 FR BND1 ZTHREE
ENDATA
".
Definition above_file : file := {|
  f_name := "ABOVE";
  f_sense := None;
  f_rows := [(None, "COST"); (Some KLess, "LIM1"); (Some KEqual, "MYEQN")];
  f_columns := [
    Entries "XONE" [("COST", q 1 1); ("LIM1", q 1 1)];
    Entries "YTWO" [("COST", q 4 1); ("LIM1", q 1 1)]; Entries "YTWO" [("MYEQN", q (-1) 1)];
    Entries "ZTHREE" [("COST", q 1 2); ("MYEQN", q 1 1)]];
  f_rhs := [("RHS1", [("LIM1", q 5 1); ("MYEQN", q 7 1)])];
  f_ranges := [("RNG1", [("LIM1", q 5 2)])];
  f_bounds := [(LowerContinuous (q 3 1), "BND1", "XONE"); (UpperContinuous (q 4 1), "BND1", "XONE"); (LowerContinuous (q (-1) 1), "BND1", "YTWO"); (UpperContinuous (q 2 1), "BND1", "YTWO"); (Free, "BND1", "ZTHREE")]
|}.
Lemma above_ok : file_ok above_file.
Proof.
  constructor; cbn [above_file f_name f_sense f_rows f_columns f_rhs f_ranges f_bounds].
  - now apply name_okb_ok.
  - intros k r H. cbn in H. repeat (destruct H as [H|H]; [injection H as <- <-; split; [now apply name_okb_ok|discriminate]|]). destruct H.
  - cbn. repeat constructor; cbn; intuition discriminate.
  - intros c values H. cbn in H. repeat (destruct H as [H|H]; [first [discriminate H|injection H as <- <-; now apply first_okb_ok]|]). destruct H.
  - cbn. repeat constructor; cbn; intuition discriminate.
  - cbn. repeat constructor; cbn; intuition discriminate.
  - intros g values H. cbn in H. repeat (destruct H as [H|H]; [injection H as <- <-; now apply first_okb_ok|]). destruct H.
  - cbn. repeat constructor; cbn; intuition discriminate.
  - intros g values H. cbn in H. repeat (destruct H as [H|H]; [injection H as <- <-; now apply first_okb_ok|]). destruct H.
  - cbn. repeat constructor; cbn; intuition discriminate.
  - intros t g c H. cbn in H. repeat (destruct H as [H|H]; [injection H as <- <- <-; split; [now apply name_okb_ok|intros X; exact X]|]). destruct H.
  - exists "COST". split; [now left|]. intros c H. cbn in H. repeat (destruct H as [H|H]; [first [discriminate H|now injection H as <-]|]). destruct H.
  - intros c r v H. cbn in H. repeat (destruct H as [H|H]; [injection H as <- <- <-; cbn; tauto|]). destruct H.
  - intros c r v H. cbn in H. repeat (destruct H as [H|H]; [injection H as <- <- <-; cbn; tauto|]). destruct H.
  - intros c r v H. cbn in H. repeat (destruct H as [H|H]; [injection H as <- <- <-; cbn; tauto|]). destruct H.
  - intros t g c H. cbn in H. repeat (destruct H as [H|H]; [injection H as <- <- <-; cbn; tauto|]). destruct H.
Qed.
Lemma above_spelled : spells above above_file.
Proof.
  assert (T : text_of (into_lines above) above) by (apply text_split; vm_compute; reflexivity).
  exists (into_lines above). split; [|exact T]. clear T.
  exists " ABOVE", [], (firstn 3 (skipn 2 (into_lines above))), ["ROWS"], (firstn 4 (skipn 6 (into_lines above))), (firstn 2 (skipn 10 (into_lines above))),
    (firstn 2 (skipn 12 (into_lines above))), (firstn 6 (skipn 14 (into_lines above))).
  split; [apply (spaced_split " ABOVE"); reflexivity|].
  split; [exists ""; split; [intros x []|reflexivity]|].
  split; [vm_compute; repeat (constructor; [dline|]); constructor|].
  split.
  { set (ls := firstn 4 (skipn 6 _)). vm_compute in ls. subst ls. cbn [above_file f_columns].
    constructor; [split; [now right|]; eexists; split; [constructor; [num false [1%nat] (@None (list nat))|constructor; [num false [1%nat] (@None (list nat))|constructor]]|dline]|].
    constructor; [split; [now right|]; eexists; split; [constructor; [num false [4%nat] (@None (list nat))|constructor; [num false [1%nat] (@None (list nat))|constructor]]|dline]|].
    constructor; [split; [now left|]; eexists; split; [constructor; [num true [1%nat] (@None (list nat))|constructor]|dline]|].
    constructor; [split; [now right|]; eexists; split; [constructor; [num false [0%nat] (Some [5%nat])|constructor; [num false [1%nat] (@None (list nat))|constructor]]|dline]|].
    constructor. }
  split.
  { right. set (ls := firstn 2 (skipn 10 _)). vm_compute in ls. subst ls. eexists. split; [reflexivity|]. cbn [above_file f_rhs].
    constructor; [split; [now right|]; eexists; split; [constructor; [num false [5%nat] (@None (list nat))|constructor; [num false [7%nat] (@None (list nat))|constructor]]|dline]|].
    constructor. }
  split.
  { right. set (ls := firstn 2 (skipn 12 _)). vm_compute in ls. subst ls. eexists. split; [reflexivity|]. cbn [above_file f_ranges].
    constructor; [split; [now left|]; eexists; split; [constructor; [num false [2%nat] (Some [5%nat])|constructor]|dline]|].
    constructor. }
  split; [|vm_compute; reflexivity].
  right. set (ls := firstn 6 (skipn 14 _)). vm_compute in ls. subst ls. eexists. split; [reflexivity|]. cbn [above_file f_bounds].
  constructor; [eexists; split; [eexists; split; [num false [3%nat] (@None (list nat))|reflexivity]|dline]|].
  constructor; [eexists; split; [eexists; split; [num false [4%nat] (@None (list nat))|reflexivity]|dline]|].
  constructor; [eexists; split; [eexists; split; [num true [1%nat] (@None (list nat))|reflexivity]|dline]|].
  constructor; [eexists; split; [eexists; split; [num false [2%nat] (@None (list nat))|reflexivity]|dline]|].
  constructor; [eexists; split; [reflexivity|dline]|].
  constructor.
Qed.
Lemma above_solvable : file_solvable above_file.
Proof.
  constructor.
  - exact (file_ok_rules _ above_ok).
  - intros c r v H. cbn in H. repeat (destruct H as [H|H]; [injection H as <- <- <-; intros Z; apply qeqb_true in Z; vm_compute in Z; discriminate Z|]). destruct H.
  - cbn. repeat constructor; cbn; intuition discriminate.
  - intros g r v H. cbn in H. destruct H as [H|[]]. injection H as <- <- <-. exists "RHS1", (q 5 1). now left.
  - intros t g g' c H. cbn in H. repeat (destruct H as [H|H]; [first [discriminate H|injection H as <- <-]|]); [|destruct H]. intros H. cbn in H. repeat (destruct H as [H|H]; [first [discriminate H|now injection H as <-]|]). destruct H.
  - intros c H. cbn in H. repeat (destruct H as [<-|H]; [|]); [..|destruct H].
    + exists (q 3 1). split; [|intros _; apply qleb_true; vm_compute; reflexivity]. intros t g T. cbn in T. repeat (destruct T as [T|T]; [first [discriminate T|injection T as <- <-; apply qleb_true; vm_compute; reflexivity]|]). destruct T.
    + exists 0%Qc. split; [|intros _; apply Qcle_refl]. intros t g T. cbn in T. repeat (destruct T as [T|T]; [first [discriminate T|injection T as <- <-; cbn; discriminate]|]). destruct T.
    + exists 0%Qc. split; [|intros _; apply Qcle_refl]. intros t g T. cbn in T. repeat (destruct T as [T|T]; [first [discriminate T|injection T as <- <-; exact I]|]). destruct T.
Qed.
Definition above_answer : answer := Solved_to (mk_solution (q 5 2) [("XONE", q 7 2); ("YTWO", q (-1) 1); ("ZTHREE", q 6 1)]).
Lemma above_solved b r n : solve_text b r n 40 above = Got (Ok above_answer).
Proof. apply text_answer_ok. destruct b, r, n; vm_compute; reflexivity. Qed.
Lemma above_answered : answered above_file above_answer.
Proof. exact (from_free _ _ Checked UseRows FirstProfitable 40 above above_ok above_spelled (above_solved _ _ _)). Qed.
Lemma at_most (a b v : Qc) : qleb a b = true -> (v <= a -> v <= b)%Qc.
Proof. intros L V. apply qleb_true in L. exact (Qcle_trans _ _ _ V L). Qed.
Lemma below_allowed v : fallowed below_file "XONE" v <-> (0 <= v /\ v <= q 3 1)%Qc.
Proof.
  split.
  - intros [A L]. split; [|apply (A (UpperContinuous (q 3 1)) "BND1"); inn]. apply L. intros t g G. cases G; try discriminate G. injection G as <- <-. exact I.
  - intros [L U]. split; [|intros _; exact L]. intros t g G. cases G; try discriminate G. injection G as <- <-. exact U.
Qed.
Lemma above_allowed v : fallowed above_file "XONE" v <-> (q 3 1 <= v /\ v <= q 4 1)%Qc.
Proof.
  split.
  - intros [A _]. split; [apply (A (LowerContinuous (q 3 1)) "BND1"); inn|apply (A (UpperContinuous (q 4 1)) "BND1"); inn].
  - intros [L U]. split; [intros t g G; cases G; try discriminate G; injection G as <- <-; assumption|]. intros _. apply (Qcle_trans _ (q 3 1)); [apply qleb_true; vm_compute; reflexivity|exact L].
Qed.
Lemma looser_allowed v : fallowed looser_file "XONE" v <-> (0 <= v /\ v <= q 4 1)%Qc.
Proof.
  split.
  - intros [A L]. split; [|apply (A (UpperContinuous (q 4 1)) "BND1"); inn]. apply L. intros t g G. cases G; try discriminate G. injection G as <- <-. exact I.
  - intros [L U]. split; [|intros _; exact L]. intros t g G. cases G; try discriminate G. injection G as <- <-. exact U.
Qed.
Lemma other_allowed f c v : f = below_file \/ f = above_file -> c = "YTWO" \/ c = "ZTHREE" -> fallowed f c v <-> fallowed looser_file c v.
Proof.
  intros F C. assert (I : forall t g, In (t, g, c) (f_bounds f) <-> In (t, g, c) (f_bounds looser_file)).
  { intros t g. destruct F as [-> | ->], C as [-> | ->]; split; intros G; cases G; try discriminate G; injection G as <- <-; inn. }
  unfold fallowed. split; intros [A L]; (split; [intros t g G; now apply (A t g), I|intros N; apply L; intros t g G; now apply (N t g), I]).
Qed.
Lemma looser_cases : two_cases looser_file below_file above_file.
Proof.
  constructor; try reflexivity. intros x. split.
  - intros [R A]. pose proof (proj1 (looser_allowed _) (A "XONE" (or_introl eq_refl))) as [L U].
    destruct (qleb (x "XONE") (q 3 1)) eqn:E; [left|right]; qb; (split; [exact R|]); intros c H; cases H; subst.
    + now apply below_allowed.
    + apply other_allowed; [now left|now left|]. apply A. inn.
    + apply other_allowed; [now left|now right|]. apply A. inn.
    + apply above_allowed. split; [now apply Qclt_le_weak|exact U].
    + apply other_allowed; [now right|now left|]. apply A. inn.
    + apply other_allowed; [now right|now right|]. apply A. inn.
  - intros [[R A]|[R A]]; (split; [exact R|]); intros c H; cases H; subst.
    + apply looser_allowed. destruct (proj1 (below_allowed _) (A "XONE" (or_introl eq_refl))) as [L U]. split; [exact L|revert U; now apply at_most].
    + apply (other_allowed below_file); [now left|now left|]. apply A. inn.
    + apply (other_allowed below_file); [now left|now right|]. apply A. inn.
    + apply looser_allowed. destruct (proj1 (above_allowed _) (A "XONE" (or_introl eq_refl))) as [L U]. split; [|exact U]. apply (Qcle_trans _ (q 3 1)); [apply qleb_true; vm_compute; reflexivity|exact L].
    + apply (other_allowed above_file); [now right|now left|]. apply A. inn.
    + apply (other_allowed above_file); [now right|now right|]. apply A. inn.
Qed.
(** three cases that overlap *)
Lemma looser_many : all_cases looser_file [below_file; crowded_file; above_file].
Proof.
  pose proof looser_cases as [S1 S2 C1 C2 I]. pose proof crowded_relaxed as X.
  constructor.
  - intros g [<-|[<-|[<-|[]]]]; [exact S1|exact (eq_sym (rx_sense _ _ X))|exact S2].
  - intros g x [<-|[<-|[<-|[]]]]; [apply C1|exact (eq_sym (relaxed_cost _ _ (fs_rules _ looser_solvable) X x))|apply C2].
  - intros x. rewrite I. split.
    + intros [F|F]; [exists below_file|exists above_file]; (split; [inn|exact F]).
    + intros (g & [<-|[<-|[<-|[]]]] & F); [now left| |now right]. apply I. exact (relaxed_feasible _ _ X x F).
Qed.
