(** * Texts with mistakes, and what is said about them *)
From Verif Require Import MpsErr MpsErrP MpsErrQ.
Local Open Scope string_scope.
Local Open Scope list_scope.

Lemma free_named : exists name, two_or_three free " X" = Got name. Proof. exists "X". reflexivity. Qed.
Lemma fixed_named : exists name, two_or_three fixed " X" = Got name. Proof. exists "X". reflexivity. Qed.

(** a second cost row; the lines are counted with the comment and the empty line *)
Definition second_cost : string := "* a comment

NAME          TEST
ROWS
 N  COST
 L  LIM1
 N  COST2
COLUMNS
ENDATA
".
Lemma second_cost_error : parse_free_t Wrapping second_cost = TErr (SyntaxError (with_location "Second cost row detected. This is not supported." (7%nat, " N  COST2"))).
Proof. reflexivity. Qed.
Lemma second_cost_place : exists e, parse_free_t Wrapping second_cost = TErr e /\ error_places e = [(7%nat, " N  COST2")].
Proof. eexists. split; [apply second_cost_error|]. reflexivity. Qed.
(** the same mistake on another line *)
Definition early_cost : string := "NAME          TEST
ROWS
 N  COST
 N  COST2
COLUMNS
ENDATA
".
Lemma places_not_shown : exists text text' e e' s, parse_free_t Wrapping text = TErr e /\ parse_free_t Wrapping text' = TErr e' /\
  error_places e <> error_places e' /\ forall fuel, display fuel e = Ok s /\ display fuel e' = Ok s.
Proof.
  exists second_cost, early_cost. do 3 eexists. split; [reflexivity|]. split; [reflexivity|]. split; [discriminate|]. intros fuel. split; reflexivity.
Qed.
(** an unknown type of a row, in fixed format *)
Definition row_type : string := "NAME          TEST
ROWS
 N  COST
 Q  LIM1
COLUMNS
ENDATA
".
Lemma row_type_place : exists e, parse_fixed_t Checked row_type = TErr e /\ error_places e = [(4%nat, " Q  LIM1")] /\
  forall fuel, display fuel e = Ok ("ParseError: Couldn't parse row type on line 4: """ ++ " Q  LIM1" ++ """" ++ String newline "")%string.
Proof. eexists. split; [vm_compute; reflexivity|]. split; [reflexivity|]. intros fuel. reflexivity. Qed.
(** a value that is not a number *)
Definition bad_value : string := "NAME          TEST
ROWS
 N  COST
 L  LIM1
COLUMNS
    X         COST                 1   LIM1                 1
RHS
    RHS1      LIM1              FIVE
ENDATA
".
Lemma unnamed : exists text e, parse_free_t Wrapping text = TErr e /\ parse_free Wrapping text = Rejected Syntax /\ error_places e = [].
Proof. exists bad_value. eexists. split; [vm_compute; reflexivity|]. split; reflexivity. Qed.
(** a file that ends in its RHS section *)
Definition cut_off : string := "NAME          TEST
ROWS
 N  COST
 L  LIM1
COLUMNS
    X         COST                 1   LIM1                 1
RHS
    RHS1      LIM1                 5
".
Lemma wrong_section : exists text e, lines text = ["NAME          TEST"; "ROWS"; " N  COST"; " L  LIM1"; "COLUMNS"; "    X         COST                 1   LIM1                 1"; "RHS"; "    RHS1      LIM1                 5"] /\
  parse_free_t Wrapping text = TErr e /\ forall fuel, display fuel e = Ok ("ParseError: Section """ ++ "COLUMNS" ++ """ ended sooner than expected." ++ String newline "")%string.
Proof. exists cut_off. eexists. split; [reflexivity|]. split; [vm_compute; reflexivity|]. intros fuel. reflexivity. Qed.
(** a value for a row that does not exist *)
Definition unknown_row : string := "NAME          TEST
ROWS
 N  COST
 L  LIM1
COLUMNS
    X         COST                 1   LIM2                 1
ENDATA
".
Lemma display_never text : forall fuel, display_inconsistency fuel text = Fuel.
Proof. induction fuel as [|fuel IH]; [reflexivity|]. cbn [display_inconsistency]. now rewrite IH. Qed.
Lemma inconsistent_never (R : reader) (T : teller R) b : syntactic R -> forall text, parse_with R b text = Rejected Inconsistent ->
  exists e, parse_with_t R T b text = TErr e /\ forall fuel, display fuel e = Fuel.
Proof.
  intros SR text H. rewrite <- (text_forget R T b SR) in H. destruct (parse_with_t R T b text) as [m|[e|e]|]; try discriminate H. eexists. split; [reflexivity|]. intros fuel. apply display_never.
Qed.
Lemma syntax_shown (R : reader) (T : teller R) b : syntactic R -> forall text, parse_with R b text = Rejected Syntax ->
  exists e s, parse_with_t R T b text = TErr e /\ forall fuel, display fuel e = Ok ("ParseError: " ++ s ++ String newline "")%string.
Proof.
  intros SR text H. rewrite <- (text_forget R T b SR) in H. destruct (parse_with_t R T b text) as [m|[[d c]|e]|]; try discriminate H. exists (SyntaxError (mk_error d c)), (render d). split; [reflexivity|]. intros fuel. reflexivity.
Qed.
Lemma unknown_row_never : exists text e, parse_free_t Wrapping text = TErr e /\ parse_free Wrapping text = Rejected Inconsistent /\ forall fuel, display fuel e = Fuel.
Proof. exists unknown_row. eexists. split; [vm_compute; reflexivity|]. split; [reflexivity|]. intros fuel. apply display_never. Qed.
Lemma chain_ends e : (forall text, e <> OfProgram text) -> exists l, (length l <= 2)%nat /\ chain 2 e = Ok l.
Proof.
  intros N. destruct e as [[[d [[n l|e|]|]]|t]|[d [[n l|e|]|]]|text|]; try (eexists; (split; [|reflexivity]); cbn; lia). now destruct (N text).
Qed.
Lemma chain_never text : forall fuel, chain fuel (OfProgram text) = Fuel.
Proof. induction fuel as [|fuel IH]; [reflexivity|]. cbn [chain source]. now rewrite IH. Qed.
Lemma error_kinds b : parse_free b bad_value = Rejected Syntax /\ parse_fixed b bad_value = Rejected Syntax /\ parse_free b unknown_row = Rejected Inconsistent /\ parse_fixed b unknown_row = Rejected Inconsistent.
Proof. destruct b; vm_compute; repeat split; reflexivity. Qed.
