(** * What is written in an MPS file in free format: the specification side

    Three parts: the content of a file ([file]), the texts that spell a content ([spells]), and when an MPS
    structure says the same as a content ([describes]). *)
From Coq Require Export Permutation.
From Verif Require Export SpecMps.
Local Open Scope string_scope.
Local Open Scope list_scope.

(** ** Contents *)
(** a line of the COLUMNS section: the coefficients of a column in some rows, or the start or end of the integer
    columns *)
Inductive column_item := Entries (column : string) (values : list (string * Qc)) | StartInteger | EndInteger.
Record file := mk_file {
  f_name : string;
  f_sense : option direction;
  (** the rows; [None] is the cost row *)
  f_rows : list (option relation_kind * string);
  f_columns : list column_item;
  (** lines with the name of the vector, and some rows and values *)
  f_rhs : list (string * list (string * Qc));
  f_ranges : list (string * list (string * Qc));
  (** the type and value, the name of the vector, and the column *)
  f_bounds : list (bound_type * string * string)
}.
(** everything the COLUMNS section says: column, row and value *)
Definition coefficients (f : file) : list (string * string * Qc) :=
  flat_map (fun item => match item with Entries c values => map (fun '(r, v) => (c, r, v)) values | _ => [] end) (f_columns f).
(** everything that a RHS or RANGES section says: name of the vector, row and value *)
Definition vector_values (l : list (string * list (string * Qc))) : list (string * string * Qc) :=
  flat_map (fun '(g, values) => map (fun '(r, v) => (g, r, v)) values) l.
(** the columns in order with whether they are integer: the lines of a column follow each other *)
Fixpoint columns_from (integer : bool) (last : option string) (items : list column_item) : list (string * bool) :=
  match items with
  | [] => []
  | StartInteger :: t => columns_from true None t
  | EndInteger :: t => columns_from false None t
  | Entries c _ :: t =>
      if match last with Some l => String.eqb l c | None => false end then columns_from integer last t
      else (c, integer) :: columns_from integer (Some c) t
  end.
Definition columns_of (f : file) : list (string * bool) := columns_from false None (f_columns f).
Definition constraint_rows (f : file) : list mrow :=
  flat_map (fun '(k, r) => match k with Some k => [mk_mrow r k] | None => [] end) (f_rows f).

(** ** The rules for contents *)
(** names consist of visible ASCII characters *)
Definition visible (c : ascii) : Prop := (33 <= N_of_ascii c <= 126)%N.
Definition name_ok (s : string) : Prop := s <> "" /\ forall c, In c (list_ascii_of_string s) -> visible c.
(** names at the start of a line: a star would make the line a comment *)
Definition first_ok (s : string) : Prop := name_ok s /\ String.get 0 s <> Some "*"%char.
Record file_ok (f : file) : Prop := mk_file_ok {
  fo_name : name_ok (f_name f);
  fo_row_names : forall k r, In (k, r) (f_rows f) -> name_ok r /\ r <> "'MARKER'";
  fo_rows : NoDup (map snd (f_rows f));
  fo_column_names : forall c values, In (Entries c values) (f_columns f) -> first_ok c;
  fo_columns : NoDup (map fst (columns_of f));
  fo_coefficients : NoDup (map fst (coefficients f));
  fo_rhs_names : forall g values, In (g, values) (f_rhs f) -> first_ok g;
  fo_rhs : NoDup (map fst (vector_values (f_rhs f)));
  fo_range_names : forall g values, In (g, values) (f_ranges f) -> first_ok g;
  fo_ranges : NoDup (map (fun '(_, r, _) => r) (vector_values (f_ranges f)));
  fo_bound_names : forall t g c, In (t, g, c) (f_bounds f) -> name_ok g /\ ~ is_semi t;
  (** there is one cost row, and everything refers to rows and columns that are there *)
  fo_cost : exists cost, In (None, cost) (f_rows f) /\ (forall cost', In (None, cost') (f_rows f) -> cost' = cost);
  fo_coefficient_rows : forall c r v, In (c, r, v) (coefficients f) -> In r (map snd (f_rows f));
  fo_rhs_rows : forall g r v, In (g, r, v) (vector_values (f_rhs f)) -> In r (map row_name (constraint_rows f));
  fo_range_rows : forall g r v, In (g, r, v) (vector_values (f_ranges f)) -> In r (map row_name (constraint_rows f));
  fo_bound_columns : forall t g c, In (t, g, c) (f_bounds f) -> In c (map fst (columns_of f))
}.

(** the rules that are not about the spelling of names *)
Record file_rules (f : file) : Prop := mk_file_rules {
  fr_rows : NoDup (map snd (f_rows f));
  fr_columns : NoDup (map fst (columns_of f));
  fr_coefficients : NoDup (map fst (coefficients f));
  fr_rhs : NoDup (map fst (vector_values (f_rhs f)));
  fr_ranges : NoDup (map (fun '(_, r, _) => r) (vector_values (f_ranges f)));
  fr_bound_types : forall t g c, In (t, g, c) (f_bounds f) -> ~ is_semi t;
  fr_cost : exists cost, In (None, cost) (f_rows f) /\ (forall cost', In (None, cost') (f_rows f) -> cost' = cost);
  fr_coefficient_rows : forall c r v, In (c, r, v) (coefficients f) -> In r (map snd (f_rows f));
  fr_rhs_rows : forall g r v, In (g, r, v) (vector_values (f_rhs f)) -> In r (map row_name (constraint_rows f));
  fr_range_rows : forall g r v, In (g, r, v) (vector_values (f_ranges f)) -> In r (map row_name (constraint_rows f));
  fr_bound_columns : forall t g c, In (t, g, c) (f_bounds f) -> In c (map fst (columns_of f))
}.

(** ** Texts *)
Definition blank (c : ascii) : Prop := c = " "%char \/ c = ascii_of_nat 9.
Definition blanks (s : string) : Prop := forall c, In c (list_ascii_of_string s) -> blank c.
(** words that are separated by blanks *)
Inductive spaced : string -> list string -> Prop :=
| spaced_end s : blanks s -> spaced s []
| spaced_word s w t ws : blanks s -> name_ok w -> spaced t ws -> (forall c, String.get 0 t = Some c -> blank c) -> spaced (s ++ w ++ t)%string (w :: ws).
(** data lines start with a space *)
Definition data_line (l : string) (ws : list string) : Prop := exists t, l = (" " ++ t)%string /\ spaced t ws.
Definition number (text : string) (v : Qc) : Prop := exists l, literal_ok l /\ text = literal_text l /\ v = literal_value l.
(** rows and values; a line has one or two of them *)
Inductive pairs : list (string * Qc) -> list string -> Prop :=
| pairs_none : pairs [] []
| pairs_more r v text l ws : number text v -> pairs l ws -> pairs ((r, v) :: l) (r :: text :: ws).
Definition one_or_two {A} (l : list A) : Prop := length l = 1%nat \/ length l = 2%nat.
Definition row_letter (k : option relation_kind) : string :=
  match k with None => "N" | Some KLess => "L" | Some KEqual => "E" | Some KGreater => "G" end.
Definition row_line (row : option relation_kind * string) (l : string) : Prop := data_line l [row_letter (fst row); snd row].
Definition column_line_of (item : column_item) (l : string) : Prop :=
  match item with
  | Entries c values => one_or_two values /\ exists ws, pairs values ws /\ data_line l (c :: ws)
  | StartInteger => exists label, first_ok label /\ data_line l [label; "'MARKER'"; "'INTORG'"]
  | EndInteger => exists label, first_ok label /\ data_line l [label; "'MARKER'"; "'INTEND'"]
  end.
Definition value_line (item : string * list (string * Qc)) (l : string) : Prop :=
  one_or_two (snd item) /\ exists ws, pairs (snd item) ws /\ data_line l (fst item :: ws).
Definition bound_words (t : bound_type) (g c : string) (ws : list string) : Prop :=
  let valued key v := exists text, number text v /\ ws = [key; g; c; text] in
  match t with
  | Free => ws = ["FR"; g; c]
  | LowerMinusInfinity => ws = ["MI"; g; c]
  | UpperInfinity => ws = ["PL"; g; c]
  | Binary => ws = ["BV"; g; c]
  | LowerContinuous v => valued "LO" v
  | UpperContinuous v => valued "UP" v
  | Fixed v => valued "FX" v
  | LowerInteger v => valued "LI" v
  | UpperInteger v => valued "UI" v
  | SemiContinuous _ _ => False
  end.
Definition bound_line (item : bound_type * string * string) (l : string) : Prop :=
  let '(t, g, c) := item in exists ws, bound_words t g c ws /\ data_line l ws.
(** a section that may be left out when it is empty *)
Definition section_lines {A} (header : string) (line : A -> string -> Prop) (items : list A) (ls : list string) : Prop :=
  (items = [] /\ ls = []) \/ exists body, ls = header :: body /\ Forall2 line items body.
(** the ROWS header, with the direction in front of it *)
Definition sense_lines (sense : option direction) (ls : list string) : Prop :=
  exists s, blanks s /\
  match sense with
  | None => ls = [("ROWS" ++ s)%string]
  | Some d => exists s1 s2 word, blanks s1 /\ blanks s2 /\
      In word match d with Minimize => ["MINIMIZE"; "MIN"] | Maximize => ["MAXIMIZE"; "MAX"] end /\
      ls = ["OBJSENSE" ++ s1; "  " ++ word ++ s2; "ROWS" ++ s]%string
  end.
(** the lines of a file, without comments and empty lines *)
Definition content_lines (f : file) (ls : list string) : Prop :=
  exists name extra rows sense columns rhs ranges bounds,
    spaced name (f_name f :: extra) /\
    sense_lines (f_sense f) sense /\
    Forall2 row_line (f_rows f) rows /\
    Forall2 column_line_of (f_columns f) columns /\
    section_lines "RHS" value_line (f_rhs f) rhs /\
    section_lines "RANGES" value_line (f_ranges f) ranges /\
    section_lines "BOUNDS" bound_line (f_bounds f) bounds /\
    ls = [("NAME" ++ name)%string] ++ sense ++ rows ++ ["COLUMNS"] ++ columns ++ rhs ++ ranges ++ bounds ++ ["ENDATA"].
Definition comment (l : string) : Prop := exists s t, blanks s /\ l = (s ++ "*" ++ t)%string.
Definition on_one_line (l : string) : Prop := ~ In (ascii_of_nat 10) (list_ascii_of_string l).
Definition no_return (l : string) : Prop := ~ In (ascii_of_nat 13) (list_ascii_of_string l).
Definition line_end (s : string) : Prop := s = String (ascii_of_nat 10) "" \/ s = String (ascii_of_nat 13) (String (ascii_of_nat 10) "").
(** a text with its lines, among comments and empty lines *)
Inductive text_of : list string -> string -> Prop :=
| text_end : text_of [] ""
| text_last l : l <> "" -> on_one_line l -> no_return l -> text_of [l] l
| text_last_comment l : comment l -> on_one_line l -> text_of [] l
| text_line l ls e t : l <> "" -> on_one_line l -> no_return l -> line_end e -> text_of ls t -> text_of (l :: ls) (l ++ e ++ t)%string
| text_skip l ls e t : l = "" \/ comment l -> on_one_line l -> line_end e -> text_of ls t -> text_of ls (l ++ e ++ t)%string.
Definition spells (text : string) (f : file) : Prop := exists ls, content_lines f ls /\ text_of ls text.

(** ** What a structure says, by name *)
Definition row_at (m : mps) (i : nat) : string := row_name (nth i (m_rows m) (mk_mrow "" KEqual)).
Definition column_at (m : mps) (j : nat) : string := col_name (nth j (m_columns m) (mk_mcolumn "" false [])).
Definition said_coefficients (m : mps) : list (string * string * Qc) :=
  flat_map (fun c => map (fun '(i, v) => (col_name c, row_at m i, v)) (col_values c)) (m_columns m) ++
  map (fun '(j, v) => (column_at m j, m_cost_name m, v)) (m_costs m).
Definition said_values (m : mps) (l : list (group Qc)) : list (string * string * Qc) :=
  flat_map (fun g => map (fun '(i, v) => (grp_name g, row_at m i, v)) (grp_values g)) l.
Definition said_bounds (m : mps) : list (bound_type * string * string) :=
  flat_map (fun g => map (fun '(j, t) => (t, grp_name g, column_at m j)) (grp_values g)) (m_bounds m).
Record describes (m : mps) (f : file) : Prop := mk_describes {
  de_name : m_name m = f_name f;
  de_sense : m_objective m = match f_sense f with Some d => d | None => Minimize end;
  de_cost : In (None, m_cost_name m) (f_rows f);
  de_rows : Permutation (m_rows m) (constraint_rows f);
  de_columns : map (fun c => (col_name c, col_integer c)) (m_columns m) = columns_of f;
  de_coefficients : Permutation (said_coefficients m) (coefficients f);
  de_rhs : Permutation (said_values m (m_rhss m)) (vector_values (f_rhs f));
  de_ranges : Permutation (said_values m (m_ranges m)) (vector_values (f_ranges f));
  de_bounds : Permutation (said_bounds m) (f_bounds f);
  (** the indices are in order and exist *)
  de_ok : mps_ok m;
  de_values : forall c, In c (m_columns m) ->
    increasing_from 0 (map fst (col_values c)) /\ forall i v, In (i, v) (col_values c) -> (i < length (m_rows m))%nat
}.

(** ** What may be in an accepted text

    The texts of [spells] have the usual layout.  More texts are accepted: words of any characters, other white
    space, more words on some lines, only the first letter of the type of a row.  The relations below list what is
    accepted; [accepted] of SpecMps.v does so for numbers. *)
Definition white (c : ascii) : Prop := N_of_ascii c = 32%N \/ (9 <= N_of_ascii c <= 13)%N.
Definition whites (s : string) : Prop := forall c, In c (list_ascii_of_string s) -> white c.
Definition word (s : string) : Prop := s <> "" /\ forall c, In c (list_ascii_of_string s) -> ~ white c.
Inductive worded : string -> list string -> Prop :=
| worded_end s : whites s -> worded s []
| worded_word s w t ws : whites s -> word w -> worded t ws -> (forall c, String.get 0 t = Some c -> white c) -> worded (s ++ w ++ t)%string (w :: ws).
(** data lines start with a space *)
Definition line_words (l : string) (ws : list string) : Prop := String.get 0 l = Some " "%char /\ worded l ws.
Definition loose_number (text : string) (v : Qc) : Prop := text <> "" /\ accepted text v.
Inductive loose_pairs : list (string * Qc) -> list string -> Prop :=
| loose_none : loose_pairs [] []
| loose_more r v text l ws : loose_number text v -> loose_pairs l ws -> loose_pairs ((r, v) :: l) (r :: text :: ws).
Definition loose_row (row : option relation_kind * string) (l : string) : Prop :=
  exists w more, line_words l (w :: snd row :: more) /\ substring 0 1 w = row_letter (fst row).
Definition loose_column (item : column_item) (l : string) : Prop :=
  match item with
  | Entries c values => one_or_two values /\ (exists ws, loose_pairs values ws /\ line_words l (c :: ws)) /\ hd "" (map fst values) <> "'MARKER'"
  | StartInteger => exists label more, line_words l (label :: "'MARKER'" :: "'INTORG'" :: more)
  | EndInteger => exists label more, line_words l (label :: "'MARKER'" :: "'INTEND'" :: more)
  end.
Definition loose_value (item : string * list (string * Qc)) (l : string) : Prop :=
  one_or_two (snd item) /\ exists ws, loose_pairs (snd item) ws /\ line_words l (fst item :: ws).
Definition loose_bound_words (t : bound_type) (g c : string) (ws : list string) : Prop :=
  let valued key v := exists text more, loose_number text v /\ ws = key :: g :: c :: text :: more in
  let plain key := exists more, ws = key :: g :: c :: more in
  match t with
  | Free => plain "FR"
  | LowerMinusInfinity => plain "MI"
  | UpperInfinity => plain "PL"
  | Binary => plain "BV"
  | LowerContinuous v => valued "LO" v
  | UpperContinuous v => valued "UP" v
  | Fixed v => valued "FX" v
  | LowerInteger v => valued "LI" v
  | UpperInteger v => valued "UI" v
  | SemiContinuous _ _ => False
  end.
Definition loose_bound (item : bound_type * string * string) (l : string) : Prop :=
  let '(t, g, c) := item in exists ws, loose_bound_words t g c ws /\ line_words l ws.
Definition loose_sense (sense : option direction) (ls : list string) : Prop :=
  match sense with
  | None => exists s, whites s /\ ls = [("ROWS" ++ s)%string]
  | Some d => exists s1 s2 word rest, whites s1 /\ whites s2 /\
      In word match d with Minimize => ["MINIMIZE"; "MIN"] | Maximize => ["MAXIMIZE"; "MAX"] end /\
      ls = ["OBJSENSE" ++ s1; "  " ++ word ++ s2; "ROWS" ++ rest]%string
  end.
Definition loose_content (f : file) (ls : list string) : Prop :=
  exists name extra rows sense header columns rhs ranges bounds,
    worded name (f_name f :: extra) /\
    loose_sense (f_sense f) sense /\
    Forall2 loose_row (f_rows f) rows /\
    (header = "COLUMNS" \/ header = "ENDATA") /\
    Forall2 loose_column (f_columns f) columns /\
    section_lines "RHS" loose_value (f_rhs f) rhs /\
    section_lines "RANGES" loose_value (f_ranges f) ranges /\
    section_lines "BOUNDS" loose_bound (f_bounds f) bounds /\
    ls = [("NAME" ++ name)%string] ++ sense ++ rows ++ [header] ++ columns ++ rhs ++ ranges ++ bounds ++ ["ENDATA"].
(** all lines of a text *)
Definition returns (l : string) : Prop := exists t, l = (t ++ String (ascii_of_nat 13) "")%string.
Definition ended (l e : string) : Prop := e = String (ascii_of_nat 13) "" \/ (e = "" /\ ~ returns l).
Inductive laid_out : list string -> string -> Prop :=
| laid_end : laid_out [] ""
| laid_last l e : on_one_line l -> ended l e -> (l ++ e <> "")%string -> laid_out [l] (l ++ e)%string
| laid_line l ls e t : on_one_line l -> ended l e -> laid_out ls t -> laid_out (l :: ls) (l ++ e ++ String (ascii_of_nat 10) t)%string.
(** without comments and empty lines *)
Definition skipped (l : string) : Prop := l = "" \/ exists s t, whites s /\ l = (s ++ "*" ++ t)%string.
Inductive kept : list string -> list string -> Prop :=
| kept_end : kept [] []
| kept_skip l ls ks : skipped l -> kept ls ks -> kept (l :: ls) ks
| kept_line l ls ks : ~ skipped l -> kept ls ks -> kept (l :: ls) (l :: ks).
Definition loosely_spells (text : string) (f : file) : Prop :=
  exists ls ks, laid_out ls text /\ kept ls ks /\ loose_content f ks.
(** what is checked of the contents *)
Record file_consistent (f : file) : Prop := mk_consistent {
  fc_rows : NoDup (map snd (f_rows f));
  fc_cost : exists cost, In (None, cost) (f_rows f) /\ (forall cost', In (None, cost') (f_rows f) -> cost' = cost);
  fc_ranges : NoDup (map (fun '(_, r, _) => r) (vector_values (f_ranges f)));
  fc_coefficient_rows : forall c r v, In (c, r, v) (coefficients f) -> In r (map snd (f_rows f));
  fc_rhs_rows : forall g r v, In (g, r, v) (vector_values (f_rhs f)) -> In r (map row_name (constraint_rows f));
  fc_range_rows : forall g r v, In (g, r, v) (vector_values (f_ranges f)) -> In r (map row_name (constraint_rows f));
  fc_bound_columns : forall t g c, In (t, g, c) (f_bounds f) -> In c (map fst (columns_of f))
}.
