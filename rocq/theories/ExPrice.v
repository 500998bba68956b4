(** * Prices of constraints *)
From Verif Require Import SpecPrice OrderP UnitsP PairP PriceP TextP FileP ExParse Examples ExGeneral ExFile ExTextPresolve ExOrder ExUnits.
Local Open Scope string_scope.
Local Open Scope list_scope.

(** prices for the program of ExOrder.v *)
Definition looser_prices : valuation := fun r => if String.eqb r "LIM1" then q 1 1 else q 1 2.
Definition looser_solution : solution := mk_solution (q 5 2) [("XONE", q 7 2); ("YTWO", q (-1) 1); ("ZTHREE", q 6 1)].
Lemma looser_beyond : beyond looser_file looser_prices "XONE" = 0%Qc /\ beyond looser_file looser_prices "YTWO" = q 7 2 /\ beyond looser_file looser_prices "ZTHREE" = 0%Qc.
Proof. repeat split; apply qeqb_true; vm_compute; reflexivity. Qed.
Lemma looser_values : frow_value looser_file (answer_at looser_solution) "LIM1" = q 5 2 /\ frow_value looser_file (answer_at looser_solution) "MYEQN" = q 7 1.
Proof. split; apply qeqb_true; vm_compute; reflexivity. Qed.
Lemma looser_priced : priced looser_file (answer_at looser_solution) looser_prices.
Proof.
  destruct looser_beyond as (B1 & B2 & B3), looser_values as [V1 V2]. constructor; change (fsense looser_file) with Minimize; cbn [toward].
  - intros k r e H _ _. cases H; try discriminate H; injection H as <- <-; apply qleb_true; vm_compute; reflexivity.
  - intros k r e H E F. exfalso. cases H; try discriminate H; injection H as <- <-.
    + rewrite V1 in F. destruct (F (q 5 1)) as [_ R]; [left; exists "RHS1"; inn|]. destruct (R (q 5 2)) as [L _]; [exists "RNG1"; inn|]. change (q 5 1 - q 5 2 <= q 5 2 - e)%Qc in L. unfold q in *. qlra.
    + rewrite V2 in F. destruct (F (q 7 1)) as [R _]; [left; exists "RHS1"; inn|]. assert (L : (q 7 1 - e = q 7 1)%Qc) by (apply R; intros w [g W]; cases W; discriminate W). unfold q in *. qlra.
  - intros c e H _ _. cases H; subst; [rewrite B1|rewrite B2|rewrite B3]; apply qleb_true; vm_compute; reflexivity.
  - intros c e H E F. cases H; subst; [rewrite B1; apply Qcle_refl| |rewrite B3; apply Qcle_refl]. exfalso.
    assert (L : (q (-1) 1 <= q (-1) 1 - e)%Qc) by (apply (proj1 F (LowerContinuous (q (-1) 1)) "BND1"); inn). unfold q in *. qlra.
Qed.
(** the same program with other right-hand sides *)
Definition larger : string := "NAME LARGER
ROWS
 N COST
 L LIM1
 E MYEQN
COLUMNS
 XONE COST 1 LIM1 1
 YTWO COST 4 LIM1 1
 YTWO MYEQN -1
 ZTHREE COST 0.5 MYEQN 1
RHS
 RHS1 LIM1 6 MYEQN 8
RANGES
 RNG1 LIM1 2.5
BOUNDS
 UP BND1 XONE 4
 LO BND1 YTWO -1
 UP BND1 YTWO 2
 FR BND1 ZTHREE
ENDATA
".
Definition larger_file : file := {|
  f_name := "LARGER";
  f_sense := None;
  f_rows := [(None, "COST"); (Some KLess, "LIM1"); (Some KEqual, "MYEQN")];
  f_columns := [
    Entries "XONE" [("COST", q 1 1); ("LIM1", q 1 1)];
    Entries "YTWO" [("COST", q 4 1); ("LIM1", q 1 1)]; Entries "YTWO" [("MYEQN", q (-1) 1)];
    Entries "ZTHREE" [("COST", q 1 2); ("MYEQN", q 1 1)]];
  f_rhs := [("RHS1", [("LIM1", q 6 1); ("MYEQN", q 8 1)])];
  f_ranges := [("RNG1", [("LIM1", q 5 2)])];
  f_bounds := [(UpperContinuous (q 4 1), "BND1", "XONE"); (LowerContinuous (q (-1) 1), "BND1", "YTWO"); (UpperContinuous (q 2 1), "BND1", "YTWO"); (Free, "BND1", "ZTHREE")]
|}.
Lemma larger_ok : file_ok larger_file.
Proof.
  constructor; cbn [larger_file f_name f_sense f_rows f_columns f_rhs f_ranges f_bounds].
  - now apply name_okb_ok.
  - intros k r H. cbn in H. repeat (destruct H as [H|H]; [injection H as <- <-; split; [now apply name_okb_ok|discriminate]|]). destruct H.
  - cbn. repeat constructor; cbn; intuition discriminate.
  - intros c values H. cbn in H. repeat (destruct H as [H|H]; [first [discriminate H|injection H as <- <-; now apply first_okb_ok]|]). destruct H.
  - cbn. repeat constructor; cbn; intuition discriminate.
  - cbn. repeat constructor; cbn; intuition discriminate.
  - intros g values H. cbn in H. repeat (destruct H as [H|H]; [injection H as <- <-; now apply first_okb_ok|]). destruct H.
  - cbn. repeat constructor; cbn; intuition discriminate.
  - intros g values H. cbn in H. repeat (destruct H as [H|H]; [injection H as <- <-; now apply first_okb_ok|]). destruct H.
  - cbn. repeat constructor; cbn; intuition discriminate.
  - intros t g c H. cbn in H. repeat (destruct H as [H|H]; [injection H as <- <- <-; split; [now apply name_okb_ok|intros X; exact X]|]). destruct H.
  - exists "COST". split; [now left|]. intros c H. cbn in H. repeat (destruct H as [H|H]; [first [discriminate H|now injection H as <-]|]). destruct H.
  - intros c r v H. cbn in H. repeat (destruct H as [H|H]; [injection H as <- <- <-; cbn; tauto|]). destruct H.
  - intros c r v H. cbn in H. repeat (destruct H as [H|H]; [injection H as <- <- <-; cbn; tauto|]). destruct H.
  - intros c r v H. cbn in H. repeat (destruct H as [H|H]; [injection H as <- <- <-; cbn; tauto|]). destruct H.
  - intros t g c H. cbn in H. repeat (destruct H as [H|H]; [injection H as <- <- <-; cbn; tauto|]). destruct H.
Qed.
Lemma larger_spelled : spells larger larger_file.
Proof.
  assert (T : text_of (into_lines larger) larger) by (apply text_split; vm_compute; reflexivity).
  exists (into_lines larger). split; [|exact T]. clear T.
  exists " LARGER", [], (firstn 3 (skipn 2 (into_lines larger))), ["ROWS"], (firstn 4 (skipn 6 (into_lines larger))), (firstn 2 (skipn 10 (into_lines larger))),
    (firstn 2 (skipn 12 (into_lines larger))), (firstn 5 (skipn 14 (into_lines larger))).
  split; [apply (spaced_split " LARGER"); reflexivity|].
  split; [exists ""; split; [intros x []|reflexivity]|].
  split; [vm_compute; repeat (constructor; [dline|]); constructor|].
  split.
  { set (ls := firstn 4 (skipn 6 _)). vm_compute in ls. subst ls. cbn [larger_file f_columns].
    constructor; [split; [now right|]; eexists; split; [constructor; [num false [1%nat] (@None (list nat))|constructor; [num false [1%nat] (@None (list nat))|constructor]]|dline]|].
    constructor; [split; [now right|]; eexists; split; [constructor; [num false [4%nat] (@None (list nat))|constructor; [num false [1%nat] (@None (list nat))|constructor]]|dline]|].
    constructor; [split; [now left|]; eexists; split; [constructor; [num true [1%nat] (@None (list nat))|constructor]|dline]|].
    constructor; [split; [now right|]; eexists; split; [constructor; [num false [0%nat] (Some [5%nat])|constructor; [num false [1%nat] (@None (list nat))|constructor]]|dline]|].
    constructor. }
  split.
  { right. set (ls := firstn 2 (skipn 10 _)). vm_compute in ls. subst ls. eexists. split; [reflexivity|]. cbn [larger_file f_rhs].
    constructor; [split; [now right|]; eexists; split; [constructor; [num false [6%nat] (@None (list nat))|constructor; [num false [8%nat] (@None (list nat))|constructor]]|dline]|].
    constructor. }
  split.
  { right. set (ls := firstn 2 (skipn 12 _)). vm_compute in ls. subst ls. eexists. split; [reflexivity|]. cbn [larger_file f_ranges].
    constructor; [split; [now left|]; eexists; split; [constructor; [num false [2%nat] (Some [5%nat])|constructor]|dline]|].
    constructor. }
  split; [|vm_compute; reflexivity].
  right. set (ls := firstn 5 (skipn 14 _)). vm_compute in ls. subst ls. eexists. split; [reflexivity|]. cbn [larger_file f_bounds].
  constructor; [eexists; split; [eexists; split; [num false [4%nat] (@None (list nat))|reflexivity]|dline]|].
  constructor; [eexists; split; [eexists; split; [num true [1%nat] (@None (list nat))|reflexivity]|dline]|].
  constructor; [eexists; split; [eexists; split; [num false [2%nat] (@None (list nat))|reflexivity]|dline]|].
  constructor; [eexists; split; [reflexivity|dline]|].
  constructor.
Qed.
Lemma larger_solvable : file_solvable larger_file.
Proof.
  constructor.
  - exact (file_ok_rules _ larger_ok).
  - intros c r v H. cbn in H. repeat (destruct H as [H|H]; [injection H as <- <- <-; intros Z; apply qeqb_true in Z; vm_compute in Z; discriminate Z|]). destruct H.
  - cbn. repeat constructor; cbn; intuition discriminate.
  - intros g r v H. cbn in H. destruct H as [H|[]]. injection H as <- <- <-. exists "RHS1", (q 6 1). now left.
  - intros t g g' c H. cbn in H. repeat (destruct H as [H|H]; [first [discriminate H|injection H as <- <-]|]); [|destruct H]. intros H. cbn in H. repeat (destruct H as [H|H]; [first [discriminate H|now injection H as <-]|]). destruct H.
  - intros c H. cbn in H. repeat (destruct H as [<-|H]; [|]); [..|destruct H].
    + exists 0%Qc. split; [|intros _; apply Qcle_refl]. intros t g T. cbn in T. repeat (destruct T as [T|T]; [first [discriminate T|injection T as <- <-; cbn; discriminate]|]). destruct T.
    + exists 0%Qc. split; [|intros _; apply Qcle_refl]. intros t g T. cbn in T. repeat (destruct T as [T|T]; [first [discriminate T|injection T as <- <-; cbn; discriminate]|]). destruct T.
    + exists 0%Qc. split; [|intros _; apply Qcle_refl]. intros t g T. cbn in T. repeat (destruct T as [T|T]; [first [discriminate T|injection T as <- <-; exact I]|]). destruct T.
Qed.
Definition larger_answer : answer := Solved_to (mk_solution (q 23 4) [("XONE", q 4 1); ("YTWO", q (-1) 2); ("ZTHREE", q 15 2)]).
Lemma larger_solved b r n : solve_text b r n 40 larger = Got (Ok larger_answer).
Proof. apply text_answer_ok. destruct b, r, n; vm_compute; reflexivity. Qed.
Lemma larger_answered : answered larger_file larger_answer.
Proof. exact (from_free _ _ Checked UseRows FirstProfitable 40 larger larger_ok larger_spelled (larger_solved _ _ _)). Qed.
Definition looser_rhs : valuation := fun r => if String.eqb r "LIM1" then q 5 1 else q 7 1.
Definition larger_rhs : valuation := fun r => if String.eqb r "LIM1" then q 6 1 else q 8 1.
Lemma larger_case : other_rhs looser_file larger_file /\ (forall r, is_constraint looser_file r -> frhs looser_file r (looser_rhs r)) /\ (forall r, is_constraint looser_file r -> frhs larger_file r (larger_rhs r)) /\
  expected_change looser_file looser_prices looser_rhs larger_rhs = q 3 2.
Proof.
  split; [constructor; reflexivity|]. split; [|split; [|apply qeqb_true; vm_compute; reflexivity]].
  - intros r [k H]. cases H; try discriminate H; injection H as <- <-; left; exists "RHS1"; inn.
  - intros r [k H]. cases H; try discriminate H; injection H as <- <-; left; exists "RHS1"; inn.
Qed.
(** and with another column *)
Definition offered : string := "NAME OFFERED
ROWS
 N COST
 L LIM1
 E MYEQN
COLUMNS
 XONE COST 1 LIM1 1
 YTWO COST 4 LIM1 1
 YTWO MYEQN -1
 WSIX COST 2 LIM1 1
 ZTHREE COST 0.5 MYEQN 1
RHS
 RHS1 LIM1 5 MYEQN 7
RANGES
 RNG1 LIM1 2.5
BOUNDS
 UP BND1 XONE 4
 LO BND1 YTWO -1
 UP BND1 YTWO 2
 FR BND1 ZTHREE
ENDATA
".
Definition offered_file : file := {|
  f_name := "OFFERED";
  f_sense := None;
  f_rows := [(None, "COST"); (Some KLess, "LIM1"); (Some KEqual, "MYEQN")];
  f_columns := [
    Entries "XONE" [("COST", q 1 1); ("LIM1", q 1 1)];
    Entries "YTWO" [("COST", q 4 1); ("LIM1", q 1 1)]; Entries "YTWO" [("MYEQN", q (-1) 1)];
    Entries "WSIX" [("COST", q 2 1); ("LIM1", q 1 1)]; Entries "ZTHREE" [("COST", q 1 2); ("MYEQN", q 1 1)]];
  f_rhs := [("RHS1", [("LIM1", q 5 1); ("MYEQN", q 7 1)])];
  f_ranges := [("RNG1", [("LIM1", q 5 2)])];
  f_bounds := [(UpperContinuous (q 4 1), "BND1", "XONE"); (LowerContinuous (q (-1) 1), "BND1", "YTWO"); (UpperContinuous (q 2 1), "BND1", "YTWO"); (Free, "BND1", "ZTHREE")]
|}.
Lemma offered_ok : file_ok offered_file.
Proof.
  constructor; cbn [offered_file f_name f_sense f_rows f_columns f_rhs f_ranges f_bounds].
  - now apply name_okb_ok.
  - intros k r H. cbn in H. repeat (destruct H as [H|H]; [injection H as <- <-; split; [now apply name_okb_ok|discriminate]|]). destruct H.
  - cbn. repeat constructor; cbn; intuition discriminate.
  - intros c values H. cbn in H. repeat (destruct H as [H|H]; [first [discriminate H|injection H as <- <-; now apply first_okb_ok]|]). destruct H.
  - cbn. repeat constructor; cbn; intuition discriminate.
  - cbn. repeat constructor; cbn; intuition discriminate.
  - intros g values H. cbn in H. repeat (destruct H as [H|H]; [injection H as <- <-; now apply first_okb_ok|]). destruct H.
  - cbn. repeat constructor; cbn; intuition discriminate.
  - intros g values H. cbn in H. repeat (destruct H as [H|H]; [injection H as <- <-; now apply first_okb_ok|]). destruct H.
  - cbn. repeat constructor; cbn; intuition discriminate.
  - intros t g c H. cbn in H. repeat (destruct H as [H|H]; [injection H as <- <- <-; split; [now apply name_okb_ok|intros X; exact X]|]). destruct H.
  - exists "COST". split; [now left|]. intros c H. cbn in H. repeat (destruct H as [H|H]; [first [discriminate H|now injection H as <-]|]). destruct H.
  - intros c r v H. cbn in H. repeat (destruct H as [H|H]; [injection H as <- <- <-; cbn; tauto|]). destruct H.
  - intros c r v H. cbn in H. repeat (destruct H as [H|H]; [injection H as <- <- <-; cbn; tauto|]). destruct H.
  - intros c r v H. cbn in H. repeat (destruct H as [H|H]; [injection H as <- <- <-; cbn; tauto|]). destruct H.
  - intros t g c H. cbn in H. repeat (destruct H as [H|H]; [injection H as <- <- <-; cbn; tauto|]). destruct H.
Qed.
Lemma offered_spelled : spells offered offered_file.
Proof.
  assert (T : text_of (into_lines offered) offered) by (apply text_split; vm_compute; reflexivity).
  exists (into_lines offered). split; [|exact T]. clear T.
  exists " OFFERED", [], (firstn 3 (skipn 2 (into_lines offered))), ["ROWS"], (firstn 5 (skipn 6 (into_lines offered))), (firstn 2 (skipn 11 (into_lines offered))),
    (firstn 2 (skipn 13 (into_lines offered))), (firstn 5 (skipn 15 (into_lines offered))).
  split; [apply (spaced_split " OFFERED"); reflexivity|].
  split; [exists ""; split; [intros x []|reflexivity]|].
  split; [vm_compute; repeat (constructor; [dline|]); constructor|].
  split.
  { set (ls := firstn 5 (skipn 6 _)). vm_compute in ls. subst ls. cbn [offered_file f_columns].
    constructor; [split; [now right|]; eexists; split; [constructor; [num false [1%nat] (@None (list nat))|constructor; [num false [1%nat] (@None (list nat))|constructor]]|dline]|].
    constructor; [split; [now right|]; eexists; split; [constructor; [num false [4%nat] (@None (list nat))|constructor; [num false [1%nat] (@None (list nat))|constructor]]|dline]|].
    constructor; [split; [now left|]; eexists; split; [constructor; [num true [1%nat] (@None (list nat))|constructor]|dline]|].
    constructor; [split; [now right|]; eexists; split; [constructor; [num false [2%nat] (@None (list nat))|constructor; [num false [1%nat] (@None (list nat))|constructor]]|dline]|].
    constructor; [split; [now right|]; eexists; split; [constructor; [num false [0%nat] (Some [5%nat])|constructor; [num false [1%nat] (@None (list nat))|constructor]]|dline]|].
    constructor. }
  split.
  { right. set (ls := firstn 2 (skipn 11 _)). vm_compute in ls. subst ls. eexists. split; [reflexivity|]. cbn [offered_file f_rhs].
    constructor; [split; [now right|]; eexists; split; [constructor; [num false [5%nat] (@None (list nat))|constructor; [num false [7%nat] (@None (list nat))|constructor]]|dline]|].
    constructor. }
  split.
  { right. set (ls := firstn 2 (skipn 13 _)). vm_compute in ls. subst ls. eexists. split; [reflexivity|]. cbn [offered_file f_ranges].
    constructor; [split; [now left|]; eexists; split; [constructor; [num false [2%nat] (Some [5%nat])|constructor]|dline]|].
    constructor. }
  split; [|vm_compute; reflexivity].
  right. set (ls := firstn 5 (skipn 15 _)). vm_compute in ls. subst ls. eexists. split; [reflexivity|]. cbn [offered_file f_bounds].
  constructor; [eexists; split; [eexists; split; [num false [4%nat] (@None (list nat))|reflexivity]|dline]|].
  constructor; [eexists; split; [eexists; split; [num true [1%nat] (@None (list nat))|reflexivity]|dline]|].
  constructor; [eexists; split; [eexists; split; [num false [2%nat] (@None (list nat))|reflexivity]|dline]|].
  constructor; [eexists; split; [reflexivity|dline]|].
  constructor.
Qed.
Lemma offered_solvable : file_solvable offered_file.
Proof.
  constructor.
  - exact (file_ok_rules _ offered_ok).
  - intros c r v H. cbn in H. repeat (destruct H as [H|H]; [injection H as <- <- <-; intros Z; apply qeqb_true in Z; vm_compute in Z; discriminate Z|]). destruct H.
  - cbn. repeat constructor; cbn; intuition discriminate.
  - intros g r v H. cbn in H. destruct H as [H|[]]. injection H as <- <- <-. exists "RHS1", (q 5 1). now left.
  - intros t g g' c H. cbn in H. repeat (destruct H as [H|H]; [first [discriminate H|injection H as <- <-]|]); [|destruct H]. intros H. cbn in H. repeat (destruct H as [H|H]; [first [discriminate H|now injection H as <-]|]). destruct H.
  - intros c H. cbn in H. repeat (destruct H as [<-|H]; [|]); [..|destruct H].
    + exists 0%Qc. split; [|intros _; apply Qcle_refl]. intros t g T. cbn in T. repeat (destruct T as [T|T]; [first [discriminate T|injection T as <- <-; cbn; discriminate]|]). destruct T.
    + exists 0%Qc. split; [|intros _; apply Qcle_refl]. intros t g T. cbn in T. repeat (destruct T as [T|T]; [first [discriminate T|injection T as <- <-; cbn; discriminate]|]). destruct T.
    + exists 0%Qc. split; [|intros _; apply Qcle_refl]. intros t g T. cbn in T. repeat (destruct T as [T|T]; [first [discriminate T|injection T as <- <-; cbn; discriminate]|]). destruct T.
    + exists 0%Qc. split; [|intros _; apply Qcle_refl]. intros t g T. cbn in T. repeat (destruct T as [T|T]; [first [discriminate T|injection T as <- <-; exact I]|]). destruct T.
Qed.
Definition offered_answer : answer := Solved_to (mk_solution (q 5 2) [("XONE", q 7 2); ("YTWO", q (-1) 1); ("WSIX", q 0 1); ("ZTHREE", q 6 1)]).
Lemma offered_solved b r n : solve_text b r n 40 offered = Got (Ok offered_answer).
Proof. apply text_answer_ok. destruct b, r, n; vm_compute; reflexivity. Qed.
Lemma offered_answered : answered offered_file offered_answer.
Proof. exact (from_free _ _ Checked UseRows FirstProfitable 40 offered offered_ok offered_spelled (offered_solved _ _ _)). Qed.
Lemma offered_extra : extra_column "WSIX" looser_file offered_file.
Proof.
  constructor; try reflexivity.
  - intros H. cases H; discriminate H.
  - intros n. split; [intros H; cases H; subst; first [left; reflexivity|right; inn]|]. intros [->|H]; [inn|cases H; subst; inn].
  - intros n r H. destruct (in_dec string_dec r ["COST"; "LIM1"; "MYEQN"]) as [I|I].
    + repeat (destruct I as [<-|I]; [cases H; subst; apply qeqb_true; vm_compute; reflexivity|]). destruct I.
    + now rewrite (no_row_value offered_file _ r (fs_rules _ offered_solvable) I), (no_row_value looser_file _ r (fs_rules _ looser_solvable) I).
  - split; [intros t g H; cases H; discriminate H|intros _; apply Qcle_refl].
  - intros v [_ L]. apply L. intros t g H. cases H; discriminate H.
Qed.
Lemma offered_beyond : beyond offered_file looser_prices "WSIX" = q 1 1.
Proof. apply qeqb_true; vm_compute; reflexivity. Qed.
