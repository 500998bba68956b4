(** * Texts with a mistake that is told with its line *)
From Verif Require Import MpsErr ExErr SpecErr AcceptFreeP ExParse ExFile.
Local Open Scope string_scope.
Local Open Scope list_scope.

Definition shown (l : string) : bool := negb (is_comment l || is_empty l).
Lemma kept_shown ls : kept ls (filter shown ls).
Proof.
  induction ls as [|l ls IH]; [constructor|]. cbn [filter]. destruct (shown l) eqn:E; unfold shown in E.
  - apply kept_line; [|exact IH]. intros S. apply skipped_spec in S. rewrite S in E. discriminate E.
  - apply kept_skip; [|exact IH]. apply skipped_spec. now apply negb_false_iff in E.
Qed.
(** a second cost row *)
Lemma second_cost_mistake : lines second_cost = firstn 6 (lines second_cost) ++ " N  COST2" :: skipn 7 (lines second_cost) /\
  kept (firstn 6 (lines second_cost)) ["NAME          TEST"; "ROWS"; " N  COST"; " L  LIM1"] /\ kept (skipn 7 (lines second_cost)) ["COLUMNS"; "ENDATA"] /\
  mistake ["NAME          TEST"; "ROWS"; " N  COST"; " L  LIM1"] " N  COST2" ["COLUMNS"; "ENDATA"].
Proof.
  split; [vm_compute; reflexivity|]. split; [apply (kept_shown (firstn 6 (lines second_cost)))|]. split; [apply (kept_shown (skipn 7 (lines second_cost)))|].
  apply (second_cost_row [(None, "COST"); (Some KLess, "LIM1")] _ " N  COST2" "COST2" []).
  - exists "NAME          TEST", ["ROWS"], None, [" N  COST"; " L  LIM1"]. split; [exists "          TEST", "TEST", []; split; [apply (spaced_split "          TEST"); reflexivity|reflexivity]|].
    split; [exists ""; split; [intros x []|reflexivity]|]. split; [|reflexivity]. repeat (constructor; [apply data_lineb_ok; vm_compute; reflexivity|]). constructor.
  - reflexivity.
  - apply data_lineb_ok. vm_compute. reflexivity.
Qed.
(** the program of ExFile.v, with a line of four words in the columns *)
Definition four_words : string := "
* Start of the file
NAME          TESTPROB

OBJSENSE
  MIN
ROWS
* This is the cost row
 N  COST
 L  LIM1
 G  LIM2
 E  MYEQN
COLUMNS
    XONE      COST                 1   LIM1                 1
    XONE      LIM2                 1
    MARKER0   'MARKER'      'INTORG'
    YTWO      COST                 4   LIM1                 1
    YTWO      MYEQN               -1
    MARKER0   'MARKER'      'INTEND'
    ZTHREE    COST               0.5   LIM2                 1
    ZTHREE    MYEQN                1
    WFOUR     COST                 2   LIM1
ENDATA
".
Definition four_before : list string := filter shown (firstn 21 (lines four_words)).
Lemma small_start : up_to_columns row_line column_line_of small_file four_before.
Proof.
  exists "          TESTPROB", [], (firstn 3 (skipn 1 four_before)), (firstn 4 (skipn 4 four_before)), (skipn 9 four_before).
  split; [apply (spaced_split "          TESTPROB"); reflexivity|].
  split; [vm_compute; exists ""; split; [intros x []|]; exists "", "", "MIN"; split; [intros x []|]; split; [intros x []|]; split; [right; now left|reflexivity]|].
  split; [vm_compute; repeat (constructor; [dline|]); constructor|].
  split; [|vm_compute; reflexivity].
  set (ls := skipn 9 _). vm_compute in ls. subst ls. cbn [small_file f_columns].
  constructor; [split; [now right|]; eexists; split; [constructor; [num false [1%nat] (@None (list nat))|constructor; [num false [1%nat] (@None (list nat))|constructor]]|dline]|].
  constructor; [split; [now left|]; eexists; split; [constructor; [num false [1%nat] (@None (list nat))|constructor]|dline]|].
  constructor; [exists "MARKER0"; split; [now apply first_okb_ok|dline]|].
  constructor; [split; [now right|]; eexists; split; [constructor; [num false [4%nat] (@None (list nat))|constructor; [num false [1%nat] (@None (list nat))|constructor]]|dline]|].
  constructor; [split; [now left|]; eexists; split; [constructor; [num true [1%nat] (@None (list nat))|constructor]|dline]|].
  constructor; [exists "MARKER0"; split; [now apply first_okb_ok|dline]|].
  constructor; [split; [now right|]; eexists; split; [constructor; [num false [0%nat] (Some [5%nat])|constructor; [num false [1%nat] (@None (list nat))|constructor]]|dline]|].
  constructor; [split; [now left|]; eexists; split; [constructor; [num false [1%nat] (@None (list nat))|constructor]|dline]|]. constructor.
Qed.
Definition four_line : string := "    WFOUR     COST                 2   LIM1".
Lemma four_words_mistake : lines four_words = firstn 21 (lines four_words) ++ four_line :: ["ENDATA"] /\
  kept (firstn 21 (lines four_words)) four_before /\ kept ["ENDATA"] ["ENDATA"] /\ mistake four_before four_line ["ENDATA"].
Proof.
  split; [vm_compute; reflexivity|]. split; [apply kept_shown|]. split; [apply (kept_shown ["ENDATA"])|].
  apply (many_words small_file four_before four_line "WFOUR" "COST" "2" (q 2 1) ["LIM1"] ["ENDATA"]).
  - exact small_ok.
  - exact small_start.
  - apply data_lineb_ok. vm_compute. reflexivity.
  - now apply first_okb_ok.
  - now left.
  - num false [2%nat] (@None (list nat)).
  - discriminate.
  - discriminate.
Qed.
(** the same program with an unknown type of bound on line 25 *)
Definition wrong_bound : string := "
* Start of the file
NAME          TESTPROB

OBJSENSE
  MIN
ROWS
* This is the cost row
 N  COST
 L  LIM1
 G  LIM2
 E  MYEQN
COLUMNS
    XONE      COST                 1   LIM1                 1
    XONE      LIM2                 1
    MARKER0   'MARKER'      'INTORG'
    YTWO      COST                 4   LIM1                 1
    YTWO      MYEQN               -1
    MARKER0   'MARKER'      'INTEND'
    ZTHREE    COST               0.5   LIM2                 1
    ZTHREE    MYEQN                1
RHS
    RHS       LIM1                 4
BOUNDS
 AB BND       XONE                 4
ENDATA
".
Definition wrong_after : list string := ["    RHS       LIM1                 4"; "BOUNDS"; " AB BND       XONE                 4"; "ENDATA"].
Lemma wrong_bound_start : lines wrong_bound = firstn 21 (lines wrong_bound) ++ "RHS" :: wrong_after /\
  kept (firstn 21 (lines wrong_bound)) four_before /\ kept wrong_after wrong_after /\ file_ok small_file /\ up_to_columns row_line column_line_of small_file four_before /\
  (forall b, parse_free b wrong_bound = Rejected Syntax).
Proof.
  split; [vm_compute; reflexivity|]. split; [apply (kept_shown (firstn 21 (lines wrong_bound)))|]. split; [apply (kept_shown wrong_after)|].
  split; [exact small_ok|]. split; [exact small_start|]. intros []; vm_compute; reflexivity.
Qed.
(** an unknown type of a row in fixed format *)
Lemma row_type_mistake : lines ExErr.row_type = ["NAME          TEST"; "ROWS"; " N  COST"] ++ " Q  LIM1" :: ["COLUMNS"; "ENDATA"] /\
  kept ["NAME          TEST"; "ROWS"; " N  COST"] ["NAME          TEST"; "ROWS"; " N  COST"] /\ kept ["COLUMNS"; "ENDATA"] ["COLUMNS"; "ENDATA"] /\
  fixed_mistake ["NAME          TEST"; "ROWS"; " N  COST"] " Q  LIM1" ["COLUMNS"; "ENDATA"].
Proof.
  split; [vm_compute; reflexivity|]. split; [apply (kept_shown ["NAME          TEST"; "ROWS"; " N  COST"])|]. split; [apply (kept_shown ["COLUMNS"; "ENDATA"])|].
  apply (fixed_wrong_type [(None, "COST")] _ " Q  LIM1" "Q").
  - exists "NAME          TEST", ["ROWS"], None, [" N  COST"]. split; [exists "          TEST", "TEST", []; split; [apply (spaced_split "          TEST"); reflexivity|reflexivity]|].
    split; [exists ""; split; [intros x []|reflexivity]|]. split; [|reflexivity]. constructor; [exists 0%nat; reflexivity|constructor].
  - intros k r [H|[]]. injection H as <- <-. split; [|discriminate]. split; [cbn; lia|]. split.
    + intros c C. left. cbn in C. repeat (destruct C as [<-|C]; [unfold visible; vm_compute; split; discriminate|]). destruct C.
    + intros c C. cbn in C. injection C as <-. unfold visible. vm_compute. split; discriminate.
  - cbn. lia.
  - reflexivity.
  - intros c C. cbn in C. repeat (destruct C as [<-|C]; [vm_compute; reflexivity|]). destruct C.
  - intros S. apply skipped_spec in S. discriminate S.
  - intros W. specialize (W "L"%char (or_introl eq_refl)). unfold white in W. change (N_of_ascii "L"%char) with 76%N in W. lia.
  - reflexivity.
  - cbn. intuition discriminate.
Qed.
