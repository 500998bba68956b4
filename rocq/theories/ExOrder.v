(** * A file with other names and another order, and a file that asks less *)
From Verif Require Import SpecOrder OrderP TextP FileP ExParse Examples ExGeneral ExFile ExTextPresolve.
Local Open Scope string_scope.
Local Open Scope list_scope.

(** the program of ExFile.v with other names; the lines have another order and no column is an integer one *)
Definition shuffled : string := "NAME OTHER
ROWS
 E third
 G second
 N total
 L first
COLUMNS
 c third 1 second 1
 c total 0.5
 a first 1
 a second 1 total 1
 b third -1.0 first 1
 b total 4
RHS
 r third 7
 r second 10 first 5
RANGES
 q first 2.5
BOUNDS
 FR d c
 UP d b 1
 LO d b -1
 UP d a 4
ENDATA
".
Definition shuffled_file : file := {|
  f_name := "OTHER";
  f_sense := None;
  f_rows := [(Some KEqual, "third"); (Some KGreater, "second"); (None, "total"); (Some KLess, "first")];
  f_columns := [
    Entries "c" [("third", q 1 1); ("second", q 1 1)]; Entries "c" [("total", q 1 2)];
    Entries "a" [("first", q 1 1)]; Entries "a" [("second", q 1 1); ("total", q 1 1)];
    Entries "b" [("third", q (-1) 1); ("first", q 1 1)]; Entries "b" [("total", q 4 1)]];
  f_rhs := [("r", [("third", q 7 1)]); ("r", [("second", q 10 1); ("first", q 5 1)])];
  f_ranges := [("q", [("first", q 5 2)])];
  f_bounds := [(Free, "d", "c"); (UpperContinuous (q 1 1), "d", "b"); (LowerContinuous (q (-1) 1), "d", "b"); (UpperContinuous (q 4 1), "d", "a")]
|}.
Definition new_row (r : string) : string := if String.eqb r "COST" then "total" else if String.eqb r "LIM1" then "first" else if String.eqb r "LIM2" then "second" else "third".
Definition new_column (c : string) : string := if String.eqb c "XONE" then "a" else if String.eqb c "YTWO" then "b" else "c".

Lemma shuffled_ok : file_ok shuffled_file.
Proof.
  constructor; cbn [shuffled_file f_name f_sense f_rows f_columns f_rhs f_ranges f_bounds].
  - now apply name_okb_ok.
  - intros k r H. cbn in H. repeat (destruct H as [H|H]; [injection H as <- <-; split; [now apply name_okb_ok|discriminate]|]). destruct H.
  - cbn. repeat constructor; cbn; intuition discriminate.
  - intros c values H. cbn in H. repeat (destruct H as [H|H]; [first [discriminate H|injection H as <- <-; now apply first_okb_ok]|]). destruct H.
  - cbn. repeat constructor; cbn; intuition discriminate.
  - cbn. repeat constructor; cbn; intuition discriminate.
  - intros g values H. cbn in H. repeat (destruct H as [H|H]; [injection H as <- <-; now apply first_okb_ok|]). destruct H.
  - cbn. repeat constructor; cbn; intuition discriminate.
  - intros g values H. cbn in H. repeat (destruct H as [H|H]; [injection H as <- <-; now apply first_okb_ok|]). destruct H.
  - cbn. repeat constructor; cbn; intuition discriminate.
  - intros t g c H. cbn in H. repeat (destruct H as [H|H]; [injection H as <- <- <-; split; [now apply name_okb_ok|intros X; exact X]|]). destruct H.
  - exists "total". split; [right; right; now left|]. intros c H. cbn in H. repeat (destruct H as [H|H]; [first [discriminate H|now injection H as <-]|]). destruct H.
  - intros c r v H. cbn in H. repeat (destruct H as [H|H]; [injection H as <- <- <-; cbn; tauto|]). destruct H.
  - intros c r v H. cbn in H. repeat (destruct H as [H|H]; [injection H as <- <- <-; cbn; tauto|]). destruct H.
  - intros c r v H. cbn in H. repeat (destruct H as [H|H]; [injection H as <- <- <-; cbn; tauto|]). destruct H.
  - intros t g c H. cbn in H. repeat (destruct H as [H|H]; [injection H as <- <- <-; cbn; tauto|]). destruct H.
Qed.
Lemma shuffled_spelled : spells shuffled shuffled_file.
Proof.
  assert (T : text_of (into_lines shuffled) shuffled) by (apply text_split; vm_compute; reflexivity).
  exists (into_lines shuffled). split; [|exact T]. clear T.
  exists " OTHER", [], (firstn 4 (skipn 2 (into_lines shuffled))), ["ROWS"], (firstn 6 (skipn 7 (into_lines shuffled))), (firstn 3 (skipn 13 (into_lines shuffled))),
    (firstn 2 (skipn 16 (into_lines shuffled))), (firstn 5 (skipn 18 (into_lines shuffled))).
  split; [apply (spaced_split " OTHER"); reflexivity|].
  split; [exists ""; split; [intros x []|reflexivity]|].
  split; [vm_compute; repeat (constructor; [dline|]); constructor|].
  split.
  { set (ls := firstn 6 _). vm_compute in ls. subst ls. cbn [shuffled_file f_columns].
    constructor; [split; [now right|]; eexists; split; [constructor; [num false [1%nat] (@None (list nat))|constructor; [num false [1%nat] (@None (list nat))|constructor]]|dline]|].
    constructor; [split; [now left|]; eexists; split; [constructor; [num false [0%nat] (Some [5%nat])|constructor]|dline]|].
    constructor; [split; [now left|]; eexists; split; [constructor; [num false [1%nat] (@None (list nat))|constructor]|dline]|].
    constructor; [split; [now right|]; eexists; split; [constructor; [num false [1%nat] (@None (list nat))|constructor; [num false [1%nat] (@None (list nat))|constructor]]|dline]|].
    constructor; [split; [now right|]; eexists; split; [constructor; [num true [1%nat] (Some [0%nat])|constructor; [num false [1%nat] (@None (list nat))|constructor]]|dline]|].
    constructor; [split; [now left|]; eexists; split; [constructor; [num false [4%nat] (@None (list nat))|constructor]|dline]|]. constructor. }
  split.
  { right. set (ls := firstn 3 (skipn 13 _)). vm_compute in ls. subst ls. eexists. split; [reflexivity|]. cbn [shuffled_file f_rhs].
    constructor; [split; [now left|]; eexists; split; [constructor; [num false [7%nat] (@None (list nat))|constructor]|dline]|].
    constructor; [split; [now right|]; eexists; split; [constructor; [num false [1%nat; 0%nat] (@None (list nat))|constructor; [num false [5%nat] (@None (list nat))|constructor]]|dline]|]. constructor. }
  split.
  { right. set (ls := firstn 2 (skipn 16 _)). vm_compute in ls. subst ls. eexists. split; [reflexivity|]. cbn [shuffled_file f_ranges].
    constructor; [split; [now left|]; eexists; split; [constructor; [num false [2%nat] (Some [5%nat])|constructor]|dline]|]. constructor. }
  split; [|vm_compute; reflexivity].
  right. set (ls := firstn 5 (skipn 18 _)). vm_compute in ls. subst ls. eexists. split; [reflexivity|]. cbn [shuffled_file f_bounds].
  constructor; [eexists; split; [reflexivity|dline]|].
  constructor; [eexists; split; [eexists; split; [num false [1%nat] (@None (list nat))|reflexivity]|dline]|].
  constructor; [eexists; split; [eexists; split; [num true [1%nat] (@None (list nat))|reflexivity]|dline]|].
  constructor; [eexists; split; [eexists; split; [num false [4%nat] (@None (list nat))|reflexivity]|dline]|]. constructor.
Qed.
Lemma shuffled_solvable : file_solvable shuffled_file.
Proof.
  constructor.
  - exact (file_ok_rules _ shuffled_ok).
  - intros c r v H. cbn in H. repeat (destruct H as [H|H]; [injection H as <- <- <-; intros Z; apply qeqb_true in Z; vm_compute in Z; discriminate Z|]). destruct H.
  - cbn. repeat constructor; cbn; intuition discriminate.
  - intros g r v H. cbn in H. destruct H as [H|[]]. injection H as <- <- <-. exists "r", (q 5 1). right. right. now left.
  - intros t g g' c H. cbn in H. repeat (destruct H as [H|H]; [first [discriminate H|injection H as <- <-]|]); [|destruct H]. intros H. cbn in H. repeat (destruct H as [H|H]; [first [discriminate H|now injection H as <-]|]). destruct H.
  - intros c H. cbn in H. destruct H as [<-|[<-|[<-|[]]]].
    + exists 0%Qc. split; [|intros _; apply Qcle_refl]. intros t g T. cbn in T. repeat (destruct T as [T|T]; [first [discriminate T|injection T as <- <-; exact I]|]). destruct T.
    + exists 0%Qc. split; [|intros _; apply Qcle_refl]. intros t g T. cbn in T. repeat (destruct T as [T|T]; [first [discriminate T|injection T as <- <-; cbn; discriminate]|]). destruct T.
    + exists 0%Qc. split; [|intros _; apply Qcle_refl]. intros t g T. cbn in T. repeat (destruct T as [T|T]; [first [discriminate T|injection T as <- <-; cbn; discriminate]|]). destruct T.
Qed.
Definition shuffled_answer : answer := Solved_to (mk_solution (q 3 1) [("c", q 6 1); ("a", q 4 1); ("b", q (-1) 1)]).
Lemma shuffled_solved b r n : solve_text b r n 40 shuffled = Got (Ok shuffled_answer).
Proof. apply text_answer_ok. destruct b, r, n; vm_compute; reflexivity. Qed.
Ltac inn := cbn; first [now left|right; inn].
Ltac cases H := cbn in H; repeat (destruct H as [H|H]; [|try (destruct H; fail)]); try (destruct H; fail).
Ltac found := first
  [solve [exists "RHS1", "LIM1"; split; [inn|reflexivity]]|solve [exists "RHS1", "LIM2"; split; [inn|reflexivity]]|solve [exists "RHS1", "MYEQN"; split; [inn|reflexivity]]|solve [exists "RNG1", "LIM1"; split; [inn|reflexivity]]
  |solve [exists "BND1", "XONE"; split; [inn|reflexivity]]|solve [exists "BND1", "YTWO"; split; [inn|reflexivity]]|solve [exists "BND1", "ZTHREE"; split; [inn|reflexivity]]].
Lemma shuffled_renamed : renamed new_row new_column small_file shuffled_file.
Proof.
  constructor.
  - intros r r' H H' E. cases H; cases H'; subst; first [reflexivity|discriminate E].
  - intros r r' H H' E. cases H; cases H'; subst; first [reflexivity|discriminate E].
  - reflexivity.
  - apply NoDup_Permutation; [cbn; repeat constructor; cbn; intuition discriminate|cbn; repeat constructor; cbn; intuition discriminate|]. intros x. cbn. tauto.
  - apply NoDup_Permutation; [cbn; repeat constructor; cbn; intuition discriminate|cbn; repeat constructor; cbn; intuition discriminate|]. intros x. cbn. tauto.
  - intros c'. split.
    + intros H. cases H; subst; [exists "ZTHREE"|exists "XONE"|exists "YTWO"]; (split; [inn|reflexivity]).
    + intros (c & H & ->). cases H; subst; inn.
  - intros r' b. split.
    + intros (g & H). cases H; injection H; intros; subst; found.
    + intros (g & r & H & ->). cases H; injection H; intros; subst; exists "r"; inn.
  - intros r' b. split.
    + intros (g & H). cases H; injection H; intros; subst; found.
    + intros (g & r & H & ->). cases H; injection H; intros; subst; exists "q"; inn.
  - intros r' b. split.
    + intros (g & H). cases H; injection H; intros; subst; found.
    + intros (g & r & H & ->). cases H; injection H; intros; subst; exists "d"; inn.
Qed.

(** the program of ExFile.v without the constraint LIM2 and with a looser bound *)
Definition looser : string := "NAME LOOSER
ROWS
 N COST
 L LIM1
 E MYEQN
COLUMNS
 XONE COST 1 LIM1 1
 YTWO COST 4 LIM1 1
 YTWO MYEQN -1
 ZTHREE COST 0.5 MYEQN 1
RHS
 RHS1 LIM1 5 MYEQN 7
RANGES
 RNG1 LIM1 2.5
BOUNDS
 UP BND1 XONE 4
 LO BND1 YTWO -1
 UP BND1 YTWO 2
 FR BND1 ZTHREE
ENDATA
".
Definition looser_file : file := {|
  f_name := "LOOSER";
  f_sense := None;
  f_rows := [(None, "COST"); (Some KLess, "LIM1"); (Some KEqual, "MYEQN")];
  f_columns := [
    Entries "XONE" [("COST", q 1 1); ("LIM1", q 1 1)];
    Entries "YTWO" [("COST", q 4 1); ("LIM1", q 1 1)]; Entries "YTWO" [("MYEQN", q (-1) 1)];
    Entries "ZTHREE" [("COST", q 1 2); ("MYEQN", q 1 1)]];
  f_rhs := [("RHS1", [("LIM1", q 5 1); ("MYEQN", q 7 1)])];
  f_ranges := [("RNG1", [("LIM1", q 5 2)])];
  f_bounds := [(UpperContinuous (q 4 1), "BND1", "XONE"); (LowerContinuous (q (-1) 1), "BND1", "YTWO"); (UpperContinuous (q 2 1), "BND1", "YTWO"); (Free, "BND1", "ZTHREE")]
|}.
Lemma looser_ok : file_ok looser_file.
Proof.
  constructor; cbn [looser_file f_name f_sense f_rows f_columns f_rhs f_ranges f_bounds].
  - now apply name_okb_ok.
  - intros k r H. cbn in H. repeat (destruct H as [H|H]; [injection H as <- <-; split; [now apply name_okb_ok|discriminate]|]). destruct H.
  - cbn. repeat constructor; cbn; intuition discriminate.
  - intros c values H. cbn in H. repeat (destruct H as [H|H]; [first [discriminate H|injection H as <- <-; now apply first_okb_ok]|]). destruct H.
  - cbn. repeat constructor; cbn; intuition discriminate.
  - cbn. repeat constructor; cbn; intuition discriminate.
  - intros g values H. cbn in H. repeat (destruct H as [H|H]; [injection H as <- <-; now apply first_okb_ok|]). destruct H.
  - cbn. repeat constructor; cbn; intuition discriminate.
  - intros g values H. cbn in H. repeat (destruct H as [H|H]; [injection H as <- <-; now apply first_okb_ok|]). destruct H.
  - cbn. repeat constructor; cbn; intuition discriminate.
  - intros t g c H. cbn in H. repeat (destruct H as [H|H]; [injection H as <- <- <-; split; [now apply name_okb_ok|intros X; exact X]|]). destruct H.
  - exists "COST". split; [now left|]. intros c H. cbn in H. repeat (destruct H as [H|H]; [first [discriminate H|now injection H as <-]|]). destruct H.
  - intros c r v H. cbn in H. repeat (destruct H as [H|H]; [injection H as <- <- <-; cbn; tauto|]). destruct H.
  - intros c r v H. cbn in H. repeat (destruct H as [H|H]; [injection H as <- <- <-; cbn; tauto|]). destruct H.
  - intros c r v H. cbn in H. repeat (destruct H as [H|H]; [injection H as <- <- <-; cbn; tauto|]). destruct H.
  - intros t g c H. cbn in H. repeat (destruct H as [H|H]; [injection H as <- <- <-; cbn; tauto|]). destruct H.
Qed.
Lemma looser_spelled : spells looser looser_file.
Proof.
  assert (T : text_of (into_lines looser) looser) by (apply text_split; vm_compute; reflexivity).
  exists (into_lines looser). split; [|exact T]. clear T.
  exists " LOOSER", [], (firstn 3 (skipn 2 (into_lines looser))), ["ROWS"], (firstn 4 (skipn 6 (into_lines looser))), (firstn 2 (skipn 10 (into_lines looser))),
    (firstn 2 (skipn 12 (into_lines looser))), (firstn 5 (skipn 14 (into_lines looser))).
  split; [apply (spaced_split " LOOSER"); reflexivity|].
  split; [exists ""; split; [intros x []|reflexivity]|].
  split; [vm_compute; repeat (constructor; [dline|]); constructor|].
  split.
  { set (ls := firstn 4 _). vm_compute in ls. subst ls. cbn [looser_file f_columns].
    constructor; [split; [now right|]; eexists; split; [constructor; [num false [1%nat] (@None (list nat))|constructor; [num false [1%nat] (@None (list nat))|constructor]]|dline]|].
    constructor; [split; [now right|]; eexists; split; [constructor; [num false [4%nat] (@None (list nat))|constructor; [num false [1%nat] (@None (list nat))|constructor]]|dline]|].
    constructor; [split; [now left|]; eexists; split; [constructor; [num true [1%nat] (@None (list nat))|constructor]|dline]|].
    constructor; [split; [now right|]; eexists; split; [constructor; [num false [0%nat] (Some [5%nat])|constructor; [num false [1%nat] (@None (list nat))|constructor]]|dline]|]. constructor. }
  split.
  { right. set (ls := firstn 2 (skipn 10 _)). vm_compute in ls. subst ls. eexists. split; [reflexivity|]. cbn [looser_file f_rhs].
    constructor; [split; [now right|]; eexists; split; [constructor; [num false [5%nat] (@None (list nat))|constructor; [num false [7%nat] (@None (list nat))|constructor]]|dline]|]. constructor. }
  split.
  { right. set (ls := firstn 2 (skipn 12 _)). vm_compute in ls. subst ls. eexists. split; [reflexivity|]. cbn [looser_file f_ranges].
    constructor; [split; [now left|]; eexists; split; [constructor; [num false [2%nat] (Some [5%nat])|constructor]|dline]|]. constructor. }
  split; [|vm_compute; reflexivity].
  right. set (ls := firstn 5 (skipn 14 _)). vm_compute in ls. subst ls. eexists. split; [reflexivity|]. cbn [looser_file f_bounds].
  constructor; [eexists; split; [eexists; split; [num false [4%nat] (@None (list nat))|reflexivity]|dline]|].
  constructor; [eexists; split; [eexists; split; [num true [1%nat] (@None (list nat))|reflexivity]|dline]|].
  constructor; [eexists; split; [eexists; split; [num false [2%nat] (@None (list nat))|reflexivity]|dline]|].
  constructor; [eexists; split; [reflexivity|dline]|]. constructor.
Qed.
Lemma looser_solvable : file_solvable looser_file.
Proof.
  constructor.
  - exact (file_ok_rules _ looser_ok).
  - intros c r v H. cbn in H. repeat (destruct H as [H|H]; [injection H as <- <- <-; intros Z; apply qeqb_true in Z; vm_compute in Z; discriminate Z|]). destruct H.
  - cbn. repeat constructor; cbn; intuition discriminate.
  - intros g r v H. cbn in H. destruct H as [H|[]]. injection H as <- <- <-. exists "RHS1", (q 5 1). now left.
  - intros t g g' c H. cbn in H. repeat (destruct H as [H|H]; [first [discriminate H|injection H as <- <-]|]); [|destruct H]. intros H. cbn in H. repeat (destruct H as [H|H]; [first [discriminate H|now injection H as <-]|]). destruct H.
  - intros c H. cbn in H. destruct H as [<-|[<-|[<-|[]]]].
    + exists 0%Qc. split; [|intros _; apply Qcle_refl]. intros t g T. cbn in T. repeat (destruct T as [T|T]; [first [discriminate T|injection T as <- <-; cbn; discriminate]|]). destruct T.
    + exists 0%Qc. split; [|intros _; apply Qcle_refl]. intros t g T. cbn in T. repeat (destruct T as [T|T]; [first [discriminate T|injection T as <- <-; cbn; discriminate]|]). destruct T.
    + exists 0%Qc. split; [|intros _; apply Qcle_refl]. intros t g T. cbn in T. repeat (destruct T as [T|T]; [first [discriminate T|injection T as <- <-; exact I]|]). destruct T.
Qed.
Lemma looser_relaxed : relaxed small_file looser_file.
Proof.
  constructor.
  - reflexivity.
  - intros k r H. cases H; try discriminate H; injection H as <- <-; inn.
  - intros r H. cases H; subst; reflexivity.
  - reflexivity.
  - intros k r b H. cases H; try discriminate H; injection H as <- <-; split; intros (g & G); cases G; try discriminate G; injection G as <- <-; exists "RHS1"; inn.
  - intros k r b H. cases H; try discriminate H; injection H as <- <-; split; intros (g & G); cases G; try discriminate G; injection G as <- <-; exists "RNG1"; inn.
  - intros c H. cases H; subst; inn.
  - intros c v H [A B]. split.
    + intros t g G. cases G; injection G as <- <- <-.
      * apply (A _ "BND1"). inn.
      * apply (A _ "BND1"). inn.
      * assert (K : (v <= q 1 1)%Qc) by (apply (A (UpperContinuous (q 1 1)) "BND1"); inn). cbn. apply (Qcle_trans _ _ _ K). apply qleb_true. vm_compute. reflexivity.
      * exact I.
    + intros L. apply B. intros t g G. cases G; injection G as <- <- <-.
      * apply (L _ "BND1"). inn.
      * apply (L _ "BND1"). inn.
      * exact I.
      * apply (L _ "BND1"). inn.
Qed.
Definition looser_answer : answer := Solved_to (mk_solution (q 5 2) [("XONE", q 7 2); ("YTWO", q (-1) 1); ("ZTHREE", q 6 1)]).
Lemma looser_solved b r n : solve_text b r n 40 looser = Got (Ok looser_answer).
Proof. apply text_answer_ok. destruct b, r, n; vm_compute; reflexivity. Qed.

(** the costs of this program times -2, maximized *)
Definition mirrored : string := "NAME LOOSER
OBJSENSE
  MAX
ROWS
 N COST
 L LIM1
 E MYEQN
COLUMNS
 XONE COST -2 LIM1 1
 YTWO COST -8 LIM1 1
 YTWO MYEQN -1
 ZTHREE COST -1 MYEQN 1
RHS
 RHS1 LIM1 5 MYEQN 7
RANGES
 RNG1 LIM1 2.5
BOUNDS
 UP BND1 XONE 4
 LO BND1 YTWO -1
 UP BND1 YTWO 2
 FR BND1 ZTHREE
ENDATA
".
Lemma mirrored_ok : file_ok (scale_cost (q (-2) 1) looser_file).
Proof.
  constructor; cbn [scale_cost scale_row looser_file f_name f_sense f_rows f_columns f_rhs f_ranges f_bounds].
  - now apply name_okb_ok.
  - intros k r H. cbn in H. repeat (destruct H as [H|H]; [injection H as <- <-; split; [now apply name_okb_ok|discriminate]|]). destruct H.
  - cbn. repeat constructor; cbn; intuition discriminate.
  - intros c values H. cbn in H. repeat (destruct H as [H|H]; [first [discriminate H|injection H as <- <-; now apply first_okb_ok]|]). destruct H.
  - cbn. repeat constructor; cbn; intuition discriminate.
  - cbn. repeat constructor; cbn; intuition discriminate.
  - intros g values H. cbn in H. repeat (destruct H as [H|H]; [injection H as <- <-; now apply first_okb_ok|]). destruct H.
  - cbn. repeat constructor; cbn; intuition discriminate.
  - intros g values H. cbn in H. repeat (destruct H as [H|H]; [injection H as <- <-; now apply first_okb_ok|]). destruct H.
  - cbn. repeat constructor; cbn; intuition discriminate.
  - intros t g c H. cbn in H. repeat (destruct H as [H|H]; [injection H as <- <- <-; split; [now apply name_okb_ok|intros X; exact X]|]). destruct H.
  - exists "COST". split; [now left|]. intros c H. cbn in H. repeat (destruct H as [H|H]; [first [discriminate H|now injection H as <-]|]). destruct H.
  - intros c r v H. assert (E : exists v', In (c, r, v') (coefficients looser_file)) by (cbn in H |- *; repeat (destruct H as [H|H]; [injection H; intros; subst; eexists; tauto|]); destruct H). destruct E as [v' E]. exact (fo_coefficient_rows _ looser_ok c r v' E).
  - intros c r v H. assert (E : In r ["LIM1"; "MYEQN"]) by (cbn in H; repeat (destruct H as [H|H]; [injection H; intros; subst; cbn; tauto|]); destruct H). exact E.
  - intros c r v H. assert (E : In r ["LIM1"; "MYEQN"]) by (cbn in H; repeat (destruct H as [H|H]; [injection H; intros; subst; cbn; tauto|]); destruct H). exact E.
  - intros t g c H. cbn in H. repeat (destruct H as [H|H]; [injection H as <- <- <-; cbn; tauto|]). destruct H.
Qed.
Lemma mirrored_spelled : spells mirrored (scale_cost (q (-2) 1) looser_file).
Proof.
  assert (T : text_of (into_lines mirrored) mirrored) by (apply text_split; vm_compute; reflexivity).
  exists (into_lines mirrored). split; [|exact T]. clear T.
  exists " LOOSER", [], (firstn 3 (skipn 4 (into_lines mirrored))), ["OBJSENSE"; "  MAX"; "ROWS"], (firstn 4 (skipn 8 (into_lines mirrored))), (firstn 2 (skipn 12 (into_lines mirrored))),
    (firstn 2 (skipn 14 (into_lines mirrored))), (firstn 5 (skipn 16 (into_lines mirrored))).
  split; [apply (spaced_split " LOOSER"); reflexivity|].
  split; [exists ""; split; [intros x []|]; exists "", "", "MAX"; split; [intros x []|]; split; [intros x []|]; split; [right; now left|reflexivity]|].
  split; [vm_compute; repeat (constructor; [dline|]); constructor|].
  split.
  { set (ls := firstn 4 (skipn 8 _)). vm_compute in ls. subst ls. cbn [scale_cost scale_row scale_items scale_values map looser_file f_columns].
    constructor; [split; [now right|]; eexists; split; [constructor; [num true [2%nat] (@None (list nat))|constructor; [num false [1%nat] (@None (list nat))|constructor]]|dline]|].
    constructor; [split; [now right|]; eexists; split; [constructor; [num true [8%nat] (@None (list nat))|constructor; [num false [1%nat] (@None (list nat))|constructor]]|dline]|].
    constructor; [split; [now left|]; eexists; split; [constructor; [num true [1%nat] (@None (list nat))|constructor]|dline]|].
    constructor; [split; [now right|]; eexists; split; [constructor; [num true [1%nat] (@None (list nat))|constructor; [num false [1%nat] (@None (list nat))|constructor]]|dline]|]. constructor. }
  split.
  { right. set (ls := firstn 2 (skipn 12 _)). vm_compute in ls. subst ls. eexists. split; [reflexivity|]. cbn [scale_cost scale_row scale_values map looser_file f_rhs].
    constructor; [split; [now right|]; eexists; split; [constructor; [num false [5%nat] (@None (list nat))|constructor; [num false [7%nat] (@None (list nat))|constructor]]|dline]|]. constructor. }
  split.
  { right. set (ls := firstn 2 (skipn 14 _)). vm_compute in ls. subst ls. eexists. split; [reflexivity|]. cbn [scale_cost scale_row scale_values map looser_file f_ranges].
    constructor; [split; [now left|]; eexists; split; [constructor; [num false [2%nat] (Some [5%nat])|constructor]|dline]|]. constructor. }
  split; [|vm_compute; reflexivity].
  right. set (ls := firstn 5 (skipn 16 _)). vm_compute in ls. subst ls. eexists. split; [reflexivity|]. cbn [scale_cost scale_row looser_file f_bounds].
  constructor; [eexists; split; [eexists; split; [num false [4%nat] (@None (list nat))|reflexivity]|dline]|].
  constructor; [eexists; split; [eexists; split; [num true [1%nat] (@None (list nat))|reflexivity]|dline]|].
  constructor; [eexists; split; [eexists; split; [num false [2%nat] (@None (list nat))|reflexivity]|dline]|].
  constructor; [eexists; split; [reflexivity|dline]|].
  constructor.
Qed.
Lemma mirrored_solvable : file_solvable (scale_cost (q (-2) 1) looser_file).
Proof.
  constructor.
  - exact (file_ok_rules _ mirrored_ok).
  - intros c r v H. cbn in H. repeat (destruct H as [H|H]; [assert (E := f_equal snd H); cbn [snd] in E; subst v; intros Z; apply qeqb_true in Z; vm_compute in Z; discriminate Z|]). destruct H.
  - cbn. repeat constructor; cbn; intuition discriminate.
  - intros g r v H. cbn in H. destruct H as [H|[]]. assert (E : r = "LIM1") by congruence. subst r. eexists "RHS1", _. now left.
  - intros t g g' c H. cbn in H. repeat (destruct H as [H|H]; [first [discriminate H|injection H as <- <-]|]); [|destruct H]. intros H. cbn in H. repeat (destruct H as [H|H]; [first [discriminate H|now injection H as <-]|]). destruct H.
  - exact (fs_domain _ looser_solvable).
Qed.
(** the reported objective value is not the cost, which is -5 *)
Definition mirrored_answer : answer := Solved_to (mk_solution (q 21 1) [("XONE", q 7 2); ("YTWO", q (-1) 1); ("ZTHREE", q 6 1)]).
Lemma mirrored_solved b r n : solve_text b r n 40 mirrored = Got (Ok mirrored_answer).
Proof. apply text_answer_ok. destruct b, r, n; vm_compute; reflexivity. Qed.

(** the constraint LIM1 of this program times 2 *)
Definition stretched : string := "NAME LOOSER
ROWS
 N COST
 L LIM1
 E MYEQN
COLUMNS
 XONE COST 1 LIM1 2
 YTWO COST 4 LIM1 2
 YTWO MYEQN -1
 ZTHREE COST 0.5 MYEQN 1
RHS
 RHS1 LIM1 10 MYEQN 7
RANGES
 RNG1 LIM1 5
BOUNDS
 UP BND1 XONE 4
 LO BND1 YTWO -1
 UP BND1 YTWO 2
 FR BND1 ZTHREE
ENDATA
".
Lemma stretched_ok : file_ok (scale_row (q 2 1) "LIM1" looser_file).
Proof.
  constructor; cbn [scale_cost scale_row looser_file f_name f_sense f_rows f_columns f_rhs f_ranges f_bounds].
  - now apply name_okb_ok.
  - intros k r H. cbn in H. repeat (destruct H as [H|H]; [injection H as <- <-; split; [now apply name_okb_ok|discriminate]|]). destruct H.
  - cbn. repeat constructor; cbn; intuition discriminate.
  - intros c values H. cbn in H. repeat (destruct H as [H|H]; [first [discriminate H|injection H as <- <-; now apply first_okb_ok]|]). destruct H.
  - cbn. repeat constructor; cbn; intuition discriminate.
  - cbn. repeat constructor; cbn; intuition discriminate.
  - intros g values H. cbn in H. repeat (destruct H as [H|H]; [injection H as <- <-; now apply first_okb_ok|]). destruct H.
  - cbn. repeat constructor; cbn; intuition discriminate.
  - intros g values H. cbn in H. repeat (destruct H as [H|H]; [injection H as <- <-; now apply first_okb_ok|]). destruct H.
  - cbn. repeat constructor; cbn; intuition discriminate.
  - intros t g c H. cbn in H. repeat (destruct H as [H|H]; [injection H as <- <- <-; split; [now apply name_okb_ok|intros X; exact X]|]). destruct H.
  - exists "COST". split; [now left|]. intros c H. cbn in H. repeat (destruct H as [H|H]; [first [discriminate H|now injection H as <-]|]). destruct H.
  - intros c r v H. assert (E : exists v', In (c, r, v') (coefficients looser_file)) by (cbn in H |- *; repeat (destruct H as [H|H]; [injection H; intros; subst; eexists; tauto|]); destruct H). destruct E as [v' E]. exact (fo_coefficient_rows _ looser_ok c r v' E).
  - intros c r v H. assert (E : In r ["LIM1"; "MYEQN"]) by (cbn in H; repeat (destruct H as [H|H]; [injection H; intros; subst; cbn; tauto|]); destruct H). exact E.
  - intros c r v H. assert (E : In r ["LIM1"; "MYEQN"]) by (cbn in H; repeat (destruct H as [H|H]; [injection H; intros; subst; cbn; tauto|]); destruct H). exact E.
  - intros t g c H. cbn in H. repeat (destruct H as [H|H]; [injection H as <- <- <-; cbn; tauto|]). destruct H.
Qed.
Lemma stretched_spelled : spells stretched (scale_row (q 2 1) "LIM1" looser_file).
Proof.
  assert (T : text_of (into_lines stretched) stretched) by (apply text_split; vm_compute; reflexivity).
  exists (into_lines stretched). split; [|exact T]. clear T.
  exists " LOOSER", [], (firstn 3 (skipn 2 (into_lines stretched))), ["ROWS"], (firstn 4 (skipn 6 (into_lines stretched))), (firstn 2 (skipn 10 (into_lines stretched))),
    (firstn 2 (skipn 12 (into_lines stretched))), (firstn 5 (skipn 14 (into_lines stretched))).
  split; [apply (spaced_split " LOOSER"); reflexivity|].
  split; [exists ""; split; [intros x []|reflexivity]|].
  split; [vm_compute; repeat (constructor; [dline|]); constructor|].
  split.
  { set (ls := firstn 4 (skipn 6 _)). vm_compute in ls. subst ls. cbn [scale_cost scale_row scale_items scale_values map looser_file f_columns].
    constructor; [split; [now right|]; eexists; split; [constructor; [num false [1%nat] (@None (list nat))|constructor; [num false [2%nat] (@None (list nat))|constructor]]|dline]|].
    constructor; [split; [now right|]; eexists; split; [constructor; [num false [4%nat] (@None (list nat))|constructor; [num false [2%nat] (@None (list nat))|constructor]]|dline]|].
    constructor; [split; [now left|]; eexists; split; [constructor; [num true [1%nat] (@None (list nat))|constructor]|dline]|].
    constructor; [split; [now right|]; eexists; split; [constructor; [num false [0%nat] (Some [5%nat])|constructor; [num false [1%nat] (@None (list nat))|constructor]]|dline]|]. constructor. }
  split.
  { right. set (ls := firstn 2 (skipn 10 _)). vm_compute in ls. subst ls. eexists. split; [reflexivity|]. cbn [scale_cost scale_row scale_values map looser_file f_rhs].
    constructor; [split; [now right|]; eexists; split; [constructor; [num false [1%nat; 0%nat] (@None (list nat))|constructor; [num false [7%nat] (@None (list nat))|constructor]]|dline]|]. constructor. }
  split.
  { right. set (ls := firstn 2 (skipn 12 _)). vm_compute in ls. subst ls. eexists. split; [reflexivity|]. cbn [scale_cost scale_row scale_values map looser_file f_ranges].
    constructor; [split; [now left|]; eexists; split; [constructor; [num false [5%nat] (@None (list nat))|constructor]|dline]|]. constructor. }
  split; [|vm_compute; reflexivity].
  right. set (ls := firstn 5 (skipn 14 _)). vm_compute in ls. subst ls. eexists. split; [reflexivity|]. cbn [scale_cost scale_row looser_file f_bounds].
  constructor; [eexists; split; [eexists; split; [num false [4%nat] (@None (list nat))|reflexivity]|dline]|].
  constructor; [eexists; split; [eexists; split; [num true [1%nat] (@None (list nat))|reflexivity]|dline]|].
  constructor; [eexists; split; [eexists; split; [num false [2%nat] (@None (list nat))|reflexivity]|dline]|].
  constructor; [eexists; split; [reflexivity|dline]|].
  constructor.
Qed.
Lemma stretched_solvable : file_solvable (scale_row (q 2 1) "LIM1" looser_file).
Proof.
  constructor.
  - exact (file_ok_rules _ stretched_ok).
  - intros c r v H. cbn in H. repeat (destruct H as [H|H]; [assert (E := f_equal snd H); cbn [snd] in E; subst v; intros Z; apply qeqb_true in Z; vm_compute in Z; discriminate Z|]). destruct H.
  - cbn. repeat constructor; cbn; intuition discriminate.
  - intros g r v H. cbn in H. destruct H as [H|[]]. assert (E : r = "LIM1") by congruence. subst r. eexists "RHS1", _. now left.
  - intros t g g' c H. cbn in H. repeat (destruct H as [H|H]; [first [discriminate H|injection H as <- <-]|]); [|destruct H]. intros H. cbn in H. repeat (destruct H as [H|H]; [first [discriminate H|now injection H as <-]|]). destruct H.
  - exact (fs_domain _ looser_solvable).
Qed.
Lemma stretched_solved b r n : solve_text b r n 40 stretched = Got (Ok looser_answer).
Proof. apply text_answer_ok. destruct b, r, n; vm_compute; reflexivity. Qed.

Lemma case_answered : answered small_file small_answer /\ answered shuffled_file shuffled_answer /\ answered looser_file looser_answer /\
  answered (scale_cost (q (-2) 1) looser_file) mirrored_answer /\ answered (scale_row (q 2 1) "LIM1" looser_file) looser_answer.
Proof.
  repeat split.
  - exact (from_free_presolved _ _ Checked UseRows FirstProfitable 40 small small_ok small_spelled (small_safe Checked 40) (fun E => False_ind _ (eq_ind small_answer (fun a => match a with NoBound => False | _ => True end) I NoBound E)) (small_presolved Checked UseRows FirstProfitable)).
  - exact (from_free _ _ Checked UseRows FirstProfitable 40 shuffled shuffled_ok shuffled_spelled (shuffled_solved _ _ _)).
  - exact (from_free _ _ Checked UseRows FirstProfitable 40 looser looser_ok looser_spelled (looser_solved _ _ _)).
  - exact (from_free _ _ Checked UseRows FirstProfitable 40 mirrored mirrored_ok mirrored_spelled (mirrored_solved _ _ _)).
  - exact (from_free _ _ Checked UseRows FirstProfitable 40 stretched stretched_ok stretched_spelled (stretched_solved _ _ _)).
Qed.
Lemma reported_mirrored : exists k f s s', k <> 0%Qc /\ file_solvable f /\ file_solvable (scale_cost k f) /\ answered f (Solved_to s) /\ answered (scale_cost k f) (Solved_to s') /\ s_objective s' <> (k * s_objective s)%Qc.
Proof.
  eexists (q (-2) 1), looser_file, _, _. split; [intros Z; apply qeqb_true in Z; vm_compute in Z; discriminate Z|]. split; [exact looser_solvable|]. split; [exact mirrored_solvable|].
  split; [exact (proj1 (proj2 (proj2 case_answered)))|]. split; [exact (proj1 (proj2 (proj2 (proj2 case_answered))))|]. intros Z. apply qeqb_true in Z. vm_compute in Z. discriminate Z.
Qed.
