(** * Mistakes in MPS files that are told with their line: the specification side *)
From Verif Require Export SpecParse SpecFixed.
Local Open Scope string_scope.
Local Open Scope list_scope.

Definition ascii_line (l : string) : Prop := forall c, In c (list_ascii_of_string l) -> (N_of_ascii c < 128)%N.
(** the text of a header, and what may follow it on its line *)
Definition header_line (header l : string) : Prop := exists s, whites s /\ l = (header ++ s)%string.
(** the line with the name of the program *)
Definition name_line (l : string) : Prop := exists name w extra, spaced name (w :: extra) /\ l = ("NAME" ++ name)%string.

(** the first lines of a file with the content [f], up to and with the lines of the columns *)
Definition up_to_columns (row : option relation_kind * string -> string -> Prop) (column : column_item -> string -> Prop) (f : file) (ls : list string) : Prop :=
  exists name extra sense rows columns, spaced name (f_name f :: extra) /\ sense_lines (f_sense f) sense /\ Forall2 row (f_rows f) rows /\
    Forall2 column (f_columns f) columns /\ ls = [("NAME" ++ name)%string] ++ sense ++ rows ++ ["COLUMNS"] ++ columns.
(** the first lines of a file, up to and with the lines of some rows *)
Definition up_to_rows (row : option relation_kind * string -> string -> Prop) (items : list (option relation_kind * string)) (ls : list string) : Prop :=
  exists n sense d rows, name_line n /\ sense_lines d sense /\ Forall2 row items rows /\ ls = n :: sense ++ rows.
(** the number of cost rows *)
Definition cost_rows (items : list (option relation_kind * string)) : nat := length (filter (fun row => match fst row with None => true | _ => false end) items).

(** [l] is the first mistake in a file that starts with the lines [before], and goes on with the lines [after]; it is in
    front of the rows *)
Inductive early_mistake : list string -> string -> list string -> Prop :=
(** the file does not start with NAME *)
| wrong_start l after : ~ skipped l -> ascii_line l -> prefix "NAME" l = false -> early_mistake [] l after
(** there is no name *)
| no_name s after : blanks s -> early_mistake [] ("NAME" ++ s)%string after
(** the name is not followed by the rows or the direction *)
| wrong_header n l after : name_line n -> ~ skipped l -> ~ header_line "ROWS" l -> ~ header_line "OBJSENSE" l -> early_mistake [n] l after
(** the direction is not one of the four words *)
| wrong_direction n o l r after : name_line n -> header_line "OBJSENSE" o -> ~ skipped l ->
    ~ header_line "  MINIMIZE" l -> ~ header_line "  MIN" l -> ~ header_line "  MAXIMIZE" l -> ~ header_line "  MAX" l -> prefix "ROWS" r = true ->
    early_mistake [n; o] l (r :: after).

(** ** Free format *)
Inductive mistake : list string -> string -> list string -> Prop :=
| early before l after : early_mistake before l after -> mistake before l after
(** the type of a row does not start with N, L, E or G *)
| wrong_type items before l t r more after : up_to_rows row_line items before -> (cost_rows items <= 1)%nat ->
    data_line l (t :: r :: more) -> (forall c, String.get 0 t = Some c -> ~ In c ["*"; "N"; "L"; "E"; "G"]%char) -> mistake before l after
(** a row has type N, and there is one already *)
| second_cost_row items before l r more after : up_to_rows row_line items before -> cost_rows items = 1%nat ->
    data_line l ("N" :: r :: more) -> mistake before l after
(** a line of the columns has fewer than three words *)
| few_words f before l c ws after : file_ok f -> up_to_columns row_line column_line_of f before ->
    data_line l (c :: ws) -> first_ok c -> (length ws < 2)%nat -> mistake before l after
(** it has four words, or more than five, and the first three are right *)
| many_words f before l c r text v ws after : file_ok f -> up_to_columns row_line column_line_of f before ->
    data_line l (c :: r :: text :: ws) -> first_ok c -> In r (map snd (f_rows f)) -> number text v -> length ws <> 0%nat -> length ws <> 2%nat -> mistake before l after
(** a marker is not 'INTORG' or 'INTEND' *)
| wrong_marker f before l label text more after : file_ok f -> up_to_columns row_line column_line_of f before ->
    data_line l (label :: "'MARKER'" :: text :: more) -> first_ok label -> text <> "'INTORG'" -> text <> "'INTEND'" -> mistake before l after.

(** ** Fixed format *)
(** the rows up to here have names, of at most eight characters *)
Definition fixed_row_names (items : list (option relation_kind * string)) : Prop := forall k r, In (k, r) items -> fixed_name r /\ r <> "".
Inductive fixed_mistake : list string -> string -> list string -> Prop :=
| fixed_early before l after : early_mistake before l after -> fixed_mistake before l after
| fixed_wrong_type items before l c after : up_to_rows fixed_row items before -> fixed_row_names items -> (cost_rows items <= 1)%nat ->
    indented l -> ascii_line l -> ~ skipped l -> ~ whites (field_2 l) -> String.get 0 (field_1 l) = Some c -> ~ In c ["N"; "L"; "E"; "G"]%char -> fixed_mistake before l after
| fixed_second_cost_row items before l after : up_to_rows fixed_row items before -> fixed_row_names items -> cost_rows items = 1%nat ->
    indented l -> ascii_line l -> ~ skipped l -> ~ whites (field_2 l) -> String.get 0 (field_1 l) = Some "N"%char -> fixed_mistake before l after
(** a line of the columns ends before the end of field 4, or it is a marker and ends before the end of field 5 *)
| fixed_short f before l after : fixed_ok f -> up_to_columns fixed_row fixed_column f before ->
    indented l -> ascii_line l -> ~ skipped l -> (String.length l < 36)%nat \/ (field_3 l = "'MARKER'" /\ (String.length l < 47)%nat) -> fixed_mistake before l after
| fixed_wrong_marker f before l after : fixed_ok f -> up_to_columns fixed_row fixed_column f before ->
    indented l -> ascii_line l -> ~ skipped l -> (47 <= String.length l)%nat -> field_3 l = "'MARKER'" -> field_5 l <> "'INTORG'" -> field_5 l <> "'INTEND'" -> fixed_mistake before l after.
