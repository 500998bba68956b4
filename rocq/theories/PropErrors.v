(** * What errors say about a file (C52, C53)

    [parse_free_t] and [parse_fixed_t] (MpsErr.v) read a text as [parse_free] and [parse_fixed] do, and give the error
    with its description and its cause.  [error_places] are the lines an error tells of, with their numbers.  [forget]
    leaves out what an error says, but for whether it is about the syntax. *)
From Verif Require Import ExFile SpecErr MpsErrR ExMistake MpsErr MpsErrP MpsErrQ ExErr.
Local Open Scope string_scope.
Local Open Scope list_scope.

(** ** Places of errors (C52) *)
(** Errors and answers are those of [parse_free] (C33, C45). *)
Theorem C52_answers : forall b text, forget (parse_free_t b text) = parse_free b text.
Proof. exact (fun b text => text_forget free free_teller b free_syntactic text). Qed.
Print Assumptions C52_answers.
Theorem C52_fixed_answers : forall b text, forget (parse_fixed_t b text) = parse_fixed b text.
Proof. exact (fun b text => text_forget fixed fixed_teller b fixed_syntactic text). Qed.
Print Assumptions C52_fixed_answers.
(** When an error tells of a line, that is the line of the text with that number.  The text is wrong up to that line:
    no text that starts with the same lines is read.  It is not wrong before that line: some text with the same lines
    before it has no mistake in its syntax. *)
Theorem C52_partial : forall b text e n l, parse_free_t b text = TErr e -> In (n, l) (error_places e) ->
  (1 <= n)%nat /\ nth_error (lines text) (n - 1) = Some l
  /\ (forall text', firstn n (lines text') = firstn n (lines text) -> forall m, parse_free b text' <> Got m)
  /\ exists text', firstn (n - 1) (lines text') = firstn (n - 1) (lines text) /\ parse_free b text' <> Rejected Syntax /\ parse_free b text' <> Crashed.
Proof. exact (fun b text => error_places_right free free_teller b free_syntactic free_named text). Qed.
Print Assumptions C52_partial.
Theorem C52_fixed_partial : forall b text e n l, parse_fixed_t b text = TErr e -> In (n, l) (error_places e) ->
  (1 <= n)%nat /\ nth_error (lines text) (n - 1) = Some l
  /\ (forall text', firstn n (lines text') = firstn n (lines text) -> forall m, parse_fixed b text' <> Got m)
  /\ exists text', firstn (n - 1) (lines text') = firstn (n - 1) (lines text) /\ parse_fixed b text' <> Rejected Syntax /\ parse_fixed b text' <> Crashed.
Proof. exact (fun b text => error_places_right fixed fixed_teller b fixed_syntactic fixed_named text). Qed.
Print Assumptions C52_fixed_partial.
Example C52_meets : exists e, parse_free_t Wrapping second_cost = TErr e /\ error_places e = [(7%nat, " N  COST2")].
Proof. exact second_cost_place. Qed.
Example C52_fixed_meets : exists e, parse_fixed_t Checked row_type = TErr e /\ error_places e = [(4%nat, " Q  LIM1")] /\
  forall fuel, display fuel e = Ok ("ParseError: Couldn't parse row type on line 4: """ ++ " Q  LIM1" ++ """" ++ String newline "")%string.
Proof. exact row_type_place. Qed.
(** The mistakes of [mistake] and [fixed_mistake] (SpecErr.v) are told with their line, and with no other line.  The text
    has the lines [before], the line [l] with the mistake and the lines [after]; [cb] and [ca] are those before and after it without comments and empty lines. *)
Theorem C52_told_partial : forall b text before l after cb ca, lines text = before ++ l :: after -> kept before cb -> kept after ca -> mistake cb l ca ->
  exists e, parse_free_t b text = TErr e /\ error_places e = [(S (length before), l)].
Proof. exact mistake_told. Qed.
Print Assumptions C52_told_partial.
Theorem C52_fixed_told_partial : forall b text before l after cb ca, lines text = before ++ l :: after -> kept before cb -> kept after ca -> fixed_mistake cb l ca ->
  exists e, parse_fixed_t b text = TErr e /\ error_places e = [(S (length before), l)].
Proof. exact fixed_mistake_told. Qed.
Print Assumptions C52_fixed_told_partial.
Example C52_told_case : lines second_cost = firstn 6 (lines second_cost) ++ " N  COST2" :: skipn 7 (lines second_cost) /\
  kept (firstn 6 (lines second_cost)) ["NAME          TEST"; "ROWS"; " N  COST"; " L  LIM1"] /\ kept (skipn 7 (lines second_cost)) ["COLUMNS"; "ENDATA"] /\
  mistake ["NAME          TEST"; "ROWS"; " N  COST"; " L  LIM1"] " N  COST2" ["COLUMNS"; "ENDATA"].
Proof. exact second_cost_mistake. Qed.
Example C52_told_column_case : lines four_words = firstn 21 (lines four_words) ++ four_line :: ["ENDATA"] /\
  kept (firstn 21 (lines four_words)) four_before /\ kept ["ENDATA"] ["ENDATA"] /\ mistake four_before four_line ["ENDATA"].
Proof. exact four_words_mistake. Qed.
Example C52_fixed_told_case : lines row_type = ["NAME          TEST"; "ROWS"; " N  COST"] ++ " Q  LIM1" :: ["COLUMNS"; "ENDATA"] /\
  kept ["NAME          TEST"; "ROWS"; " N  COST"] ["NAME          TEST"; "ROWS"; " N  COST"] /\ kept ["COLUMNS"; "ENDATA"] ["COLUMNS"; "ENDATA"] /\
  fixed_mistake ["NAME          TEST"; "ROWS"; " N  COST"] " Q  LIM1" ["COLUMNS"; "ENDATA"].
Proof. exact row_type_mistake. Qed.
(** Not every mistake is located: the error about a value that is not a number tells of no line. *)
Theorem C52_refuted : exists text e, parse_free_t Wrapping text = TErr e /\ parse_free Wrapping text = Rejected Syntax /\ error_places e = [].
Proof. exact unnamed. Qed.
Print Assumptions C52_refuted.
(** Nor is any mistake after the columns: when the lines up to the end of the columns are right (they are those of the
    program [f]), and the line [l] starts another section, then no error tells of a line. *)
Theorem C52_later_refuted : forall b text before l after cb ca f, lines text = before ++ l :: after -> kept before cb -> kept after ca ->
  file_ok f -> up_to_columns row_line column_line_of f cb -> ~ skipped l -> String.get 0 l <> Some " "%char ->
  forall e, parse_free_t b text = TErr e -> error_places e = [].
Proof. exact free_later. Qed.
Print Assumptions C52_later_refuted.
Theorem C52_fixed_later_refuted : forall b text before l after cb ca f, lines text = before ++ l :: after -> kept before cb -> kept after ca ->
  fixed_ok f -> up_to_columns fixed_row fixed_column f cb -> ~ skipped l -> String.get 0 l <> Some " "%char ->
  forall e, parse_fixed_t b text = TErr e -> error_places e = [].
Proof. exact fixed_later. Qed.
Print Assumptions C52_fixed_later_refuted.
(** a bound of an unknown type *)
Example C52_later_case : lines wrong_bound = firstn 21 (lines wrong_bound) ++ "RHS" :: wrong_after /\
  kept (firstn 21 (lines wrong_bound)) four_before /\ kept wrong_after wrong_after /\ file_ok small_file /\ up_to_columns row_line column_line_of small_file four_before /\
  (forall b, parse_free b wrong_bound = Rejected Syntax).
Proof. exact wrong_bound_start. Qed.
(** A place that is known is not always printed: the same text is printed for mistakes on different lines. *)
Theorem C52_shown_refuted : exists text text' e e' s, parse_free_t Wrapping text = TErr e /\ parse_free_t Wrapping text' = TErr e' /\
  error_places e <> error_places e' /\ forall fuel, display fuel e = Ok s /\ display fuel e' = Ok s.
Proof. exact places_not_shown. Qed.
Print Assumptions C52_shown_refuted.
(** The section that is named is not always the right one: a file that ends in its RHS section is said to end in its
    COLUMNS section. *)
Theorem C52_section_refuted : exists text e, lines text = ["NAME          TEST"; "ROWS"; " N  COST"; " L  LIM1"; "COLUMNS"; "    X         COST                 1   LIM1                 1"; "RHS"; "    RHS1      LIM1                 5"] /\
  parse_free_t Wrapping text = TErr e /\ forall fuel, display fuel e = Ok ("ParseError: Section """ ++ "COLUMNS" ++ """ ended sooner than expected." ++ String newline "")%string.
Proof. exact wrong_section. Qed.
Print Assumptions C52_section_refuted.

(** ** Printing errors (C53) *)
(** [display] bounds the depth of the calls by its first argument, and gives [Fuel] when that is not enough.

    The error about a text with a mistake in its syntax can be printed. *)
Theorem C53_partial : forall b text, parse_free b text = Rejected Syntax ->
  exists e s, parse_free_t b text = TErr e /\ forall fuel, display fuel e = Ok ("ParseError: " ++ s ++ String newline "")%string.
Proof. exact (fun b => syntax_shown free free_teller b free_syntactic). Qed.
Print Assumptions C53_partial.
Theorem C53_fixed_partial : forall b text, parse_fixed b text = Rejected Syntax ->
  exists e s, parse_fixed_t b text = TErr e /\ forall fuel, display fuel e = Ok ("ParseError: " ++ s ++ String newline "")%string.
Proof. exact (fun b => syntax_shown fixed fixed_teller b fixed_syntactic). Qed.
Print Assumptions C53_fixed_partial.
(** The causes of an error of the import, and of an error about the syntax inside it, can be followed to their end.  Only
    the error about an inconsistency is different, see [C53_causes_refuted]. *)
Theorem C53_causes : forall e, (forall text, e <> OfProgram text) -> exists l, (length l <= 2)%nat /\ chain 2 e = Ok l.
Proof. exact chain_ends. Qed.
Print Assumptions C53_causes.
(** Printing the error about an inconsistent file never ends, whatever the file.  In a run this is an overflow of the stack. *)
Theorem C53_never : forall b text, parse_free b text = Rejected Inconsistent -> exists e, parse_free_t b text = TErr e /\ forall fuel, display fuel e = Fuel.
Proof. exact (fun b => inconsistent_never free free_teller b free_syntactic). Qed.
Print Assumptions C53_never.
Theorem C53_fixed_never : forall b text, parse_fixed b text = Rejected Inconsistent -> exists e, parse_fixed_t b text = TErr e /\ forall fuel, display fuel e = Fuel.
Proof. exact (fun b => inconsistent_never fixed fixed_teller b fixed_syntactic). Qed.
Print Assumptions C53_fixed_never.
Example C53_case : forall b, parse_free b bad_value = Rejected Syntax /\ parse_fixed b bad_value = Rejected Syntax /\ parse_free b unknown_row = Rejected Inconsistent /\ parse_fixed b unknown_row = Rejected Inconsistent.
Proof. exact error_kinds. Qed.
Theorem C53_refuted : exists text e, parse_free_t Wrapping text = TErr e /\ parse_free Wrapping text = Rejected Inconsistent /\ forall fuel, display fuel e = Fuel.
Proof. exact unknown_row_never. Qed.
Print Assumptions C53_refuted.
(** Nor can the causes of an inconsistency be followed to their end: it says that it is its own cause. *)
Theorem C53_causes_refuted : exists text, forall fuel, chain fuel (OfProgram text) = Fuel.
Proof. exact (ex_intro (fun text => forall fuel, chain fuel (OfProgram text) = Fuel) "No cost name read." (chain_never "No cost name read.")). Qed.
Print Assumptions C53_causes_refuted.
