(** * What is written in an MPS file in fixed format: the specification side

    The contents, the rules for them and [describes] are those of SpecParse.v.  In fixed format the fields of a line
    are found by their place: field 1 is columns 2-3 of the line, field 2 is columns 5-12, field 3 is columns 15-22,
    field 4 is columns 25-36, field 5 is columns 40-47 and field 6 is columns 50-61.  Names may contain spaces.
    Here names start at the left of their field and numbers end at the right of theirs. *)
From Verif Require Export SpecParse.
Local Open Scope string_scope.
Local Open Scope list_scope.

(** ** Names *)
(** a name of at most eight visible characters and spaces, that does not end with a space *)
Definition fixed_name (s : string) : Prop :=
  (String.length s <= 8)%nat /\ (forall c, In c (list_ascii_of_string s) -> visible c \/ c = " "%char) /\
  forall c, String.get (String.length s - 1) s = Some c -> visible c.
(** the first name on a line: a star would make the line a comment *)
Definition fixed_first (s : string) : Prop := exists c t, s = String c t /\ visible c /\ c <> "*"%char.
(** names of vectors may be empty *)
Definition vector_ok (g : string) (values : list (string * Qc)) : Prop :=
  fixed_name g /\ (fixed_first g \/ (g = "" /\ fixed_first (hd "" (map fst values)))).
Record fixed_ok (f : file) : Prop := mk_fixed_ok {
  xo_rules : file_rules f;
  xo_row_names : forall k r, In (k, r) (f_rows f) -> fixed_name r /\ r <> "" /\ r <> "'MARKER'";
  xo_column_names : forall c values, In (Entries c values) (f_columns f) -> fixed_name c /\ fixed_first c;
  xo_rhs_names : forall g values, In (g, values) (f_rhs f) -> vector_ok g values;
  xo_range_names : forall g values, In (g, values) (f_ranges f) -> vector_ok g values;
  xo_bound_names : forall t g c, In (t, g, c) (f_bounds f) -> fixed_name g
}.

(** ** Lines *)
(** [n] spaces *)
Fixpoint gap (n : nat) : string := match n with O => "" | S n => String " " (gap n) end.
(** a text at the left or at the right of a field of width [k] *)
Definition left (k : nat) (s : string) : string := (s ++ gap (k - String.length s))%string.
Definition right (k : nat) (s : string) : string := (gap (k - String.length s) ++ s)%string.
Definition short_number (text : string) (v : Qc) : Prop := number text v /\ (String.length text <= 12)%nat.
(** fields 3 and 4, or 5 and 6 *)
Definition name_and_number (r text : string) : string := (left 8 r ++ "  " ++ right 12 text)%string.
(** fields 2 to 4, and maybe 5 and 6; more spaces at the end of the line *)
Definition fixed_pairs (name : string) (values : list (string * Qc)) (l : string) : Prop :=
  exists n,
  match values with
  | [(r, v)] => exists text, short_number text v /\ l = ("    " ++ left 8 name ++ "  " ++ name_and_number r text ++ gap n)%string
  | [(r, v); (r', v')] => exists text text', short_number text v /\ short_number text' v' /\
      l = ("    " ++ left 8 name ++ "  " ++ name_and_number r text ++ "   " ++ name_and_number r' text' ++ gap n)%string
  | _ => False
  end.
Definition fixed_row (row : option relation_kind * string) (l : string) : Prop :=
  exists n, l = (" " ++ row_letter (fst row) ++ "  " ++ snd row ++ gap n)%string.
(** the marker is field 3, and its kind is field 5 *)
Definition fixed_marker (kind l : string) : Prop :=
  exists label n, fixed_name label /\ fixed_first label /\ l = ("    " ++ left 8 label ++ "  " ++ "'MARKER'" ++ gap 17 ++ kind ++ gap n)%string.
Definition fixed_column (item : column_item) (l : string) : Prop :=
  match item with
  | Entries c values => fixed_pairs c values l
  | StartInteger => fixed_marker "'INTORG'" l
  | EndInteger => fixed_marker "'INTEND'" l
  end.
Definition fixed_value (item : string * list (string * Qc)) (l : string) : Prop := fixed_pairs (fst item) (snd item) l.
(** the name of the column is padded to its width when there is no value *)
Definition fixed_bound (item : bound_type * string * string) (l : string) : Prop :=
  let '(t, g, c) := item in
  let plain key := exists n, l = (" " ++ key ++ " " ++ left 8 g ++ "  " ++ left 8 c ++ gap n)%string in
  let valued key v := exists text n, short_number text v /\ l = (" " ++ key ++ " " ++ left 8 g ++ "  " ++ name_and_number c text ++ gap n)%string in
  match t with
  | Free => plain "FR"
  | LowerMinusInfinity => plain "MI"
  | UpperInfinity => plain "PL"
  | Binary => plain "BV"
  | LowerContinuous v => valued "LO" v
  | UpperContinuous v => valued "UP" v
  | Fixed v => valued "FX" v
  | LowerInteger v => valued "LI" v
  | UpperInteger v => valued "UI" v
  | SemiContinuous _ _ => False
  end.
(** the name of the program is still the first word of its line *)
Definition fixed_lines (f : file) (ls : list string) : Prop :=
  exists name extra rows sense columns rhs ranges bounds,
    spaced name (f_name f :: extra) /\
    sense_lines (f_sense f) sense /\
    Forall2 fixed_row (f_rows f) rows /\
    Forall2 fixed_column (f_columns f) columns /\
    section_lines "RHS" fixed_value (f_rhs f) rhs /\
    section_lines "RANGES" fixed_value (f_ranges f) ranges /\
    section_lines "BOUNDS" fixed_bound (f_bounds f) bounds /\
    ls = [("NAME" ++ name)%string] ++ sense ++ rows ++ ["COLUMNS"] ++ columns ++ rhs ++ ranges ++ bounds ++ ["ENDATA"].
Definition fixed_spells (text : string) (f : file) : Prop := exists ls, fixed_lines f ls /\ text_of ls text.

(** ** What may be in an accepted text

    More texts are accepted: nothing is said about the columns between the fields and after them, only the first
    letter of field 1 is looked at for rows, and fields 5 and 6 are left out when the line ends before column 61. *)
(** a name is what is left of its field without white space at the end, and a number without white space in front *)
Definition name_in (field name : string) : Prop :=
  exists w, field = (name ++ w)%string /\ whites w /\ forall c, String.get (String.length name - 1) name = Some c -> ~ white c.
Definition number_in (field : string) (v : Qc) : Prop := exists w text, field = (w ++ text)%string /\ whites w /\ loose_number text v.
Definition field_1 (l : string) : string := substring 1 2 l.
Definition field_2 (l : string) : string := substring 4 8 l.
Definition field_3 (l : string) : string := substring 14 8 l.
Definition field_4 (l : string) : string := substring 24 12 l.
Definition field_5 (l : string) : string := substring 39 8 l.
Definition field_6 (l : string) : string := substring 49 12 l.
Definition indented (l : string) : Prop := String.get 0 l = Some " "%char.
Definition loose_fixed_row (row : option relation_kind * string) (l : string) : Prop :=
  indented l /\ substring 0 1 (field_1 l) = row_letter (fst row) /\ name_in (field_2 l) (snd row) /\ snd row <> "".
Definition loose_fixed_pairs (name : string) (values : list (string * Qc)) (l : string) : Prop :=
  indented l /\ (36 <= String.length l)%nat /\ name_in (field_2 l) name /\
  match values with
  | [(r, v)] => name_in (field_3 l) r /\ number_in (field_4 l) v /\ ((String.length l < 61)%nat \/ whites (field_5 l) \/ whites (field_6 l))
  | [(r, v); (r', v')] => name_in (field_3 l) r /\ number_in (field_4 l) v /\ (61 <= String.length l)%nat /\ name_in (field_5 l) r' /\ r' <> "" /\ number_in (field_6 l) v'
  | _ => False
  end.
Definition loose_fixed_column (item : column_item) (l : string) : Prop :=
  match item with
  | Entries c values => loose_fixed_pairs c values l /\ field_3 l <> "'MARKER'"
  | StartInteger => indented l /\ field_3 l = "'MARKER'" /\ field_5 l = "'INTORG'"
  | EndInteger => indented l /\ field_3 l = "'MARKER'" /\ field_5 l = "'INTEND'"
  end.
Definition loose_fixed_value (item : string * list (string * Qc)) (l : string) : Prop := loose_fixed_pairs (fst item) (snd item) l.
Definition loose_fixed_bound (item : bound_type * string * string) (l : string) : Prop :=
  let '(t, g, c) := item in
  indented l /\ name_in (field_2 l) g /\ name_in (field_3 l) c /\ (22 <= String.length l)%nat /\
  let plain key := field_1 l = key in
  let valued key v := field_1 l = key /\ (36 <= String.length l)%nat /\ number_in (field_4 l) v in
  match t with
  | Free => plain "FR"
  | LowerMinusInfinity => plain "MI"
  | UpperInfinity => plain "PL"
  | Binary => plain "BV"
  | LowerContinuous v => valued "LO" v
  | UpperContinuous v => valued "UP" v
  | Fixed v => valued "FX" v
  | LowerInteger v => valued "LI" v
  | UpperInteger v => valued "UI" v
  | SemiContinuous _ _ => False
  end.
Definition loose_fixed_lines (f : file) (ls : list string) : Prop :=
  exists name extra rows sense header columns rhs ranges bounds,
    worded name (f_name f :: extra) /\
    loose_sense (f_sense f) sense /\
    Forall2 loose_fixed_row (f_rows f) rows /\
    (header = "COLUMNS" \/ header = "ENDATA") /\
    Forall2 loose_fixed_column (f_columns f) columns /\
    section_lines "RHS" loose_fixed_value (f_rhs f) rhs /\
    section_lines "RANGES" loose_fixed_value (f_ranges f) ranges /\
    section_lines "BOUNDS" loose_fixed_bound (f_bounds f) bounds /\
    ls = [("NAME" ++ name)%string] ++ sense ++ rows ++ [header] ++ columns ++ rhs ++ ranges ++ bounds ++ ["ENDATA"].
Definition fixed_loosely_spells (text : string) (f : file) : Prop :=
  exists ls ks, laid_out ls text /\ kept ls ks /\ loose_fixed_lines f ks.
