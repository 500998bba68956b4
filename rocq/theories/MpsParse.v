(** * Reading MPS files: model of /repo/src/io/mps/parse/mod.rs, free.rs and fixed.rs

    From the text of a file to the structure of Mps.v.  Error messages are left out.  Strings are the bytes of
    their UTF-8 encoding.  White space is ASCII white space: the other white space characters of Unicode, which
    the standard library also splits at, are not modelled. *)
From Verif Require Export Mps.
Local Open Scope string_scope.
Local Open Scope list_scope.

(** ** The standard library on strings *)
(** `char::is_whitespace` on ASCII characters *)
Definition is_blank (c : ascii) : bool := let k := N_of_ascii c in (k =? 32)%N || ((9 <=? k) && (k <=? 13))%N.
Definition add_word (w : string) (ws : list string) : list string := match w with EmptyString => ws | _ => w :: ws end.
(** `str::split_whitespace`: the word that the text starts with (empty when it starts with white space), and the
    words after that *)
Fixpoint words_from (s : string) : string * list string :=
  match s with
  | EmptyString => (EmptyString, [])
  | String c t => let (w, ws) := words_from t in if is_blank c then (EmptyString, add_word w ws) else (String c w, ws)
  end.
Definition split_whitespace (s : string) : list string := let (w, ws) := words_from s in add_word w ws.
(** `str::trim_start` and `str::trim_end` *)
Fixpoint trim_start (s : string) : string :=
  match s with EmptyString => EmptyString | String c t => if is_blank c then trim_start t else s end.
Fixpoint trim_end (s : string) : string :=
  match s with
  | EmptyString => EmptyString
  | String c t => match trim_end t with EmptyString => if is_blank c then EmptyString else String c EmptyString | t' => String c t' end
  end.
(** `str::lines`: the text before the first line feed and the lines after that; a carriage return at the end of a
    line is dropped, and so is an empty last line *)
Definition newline : ascii := ascii_of_nat 10.
Fixpoint lines_from (s : string) : string * list string :=
  match s with
  | EmptyString => (EmptyString, [])
  | String c t => let (l, ls) := lines_from t in if Ascii.eqb c newline then (EmptyString, l :: ls) else (String c l, ls)
  end.
Fixpoint drop_return (s : string) : string :=
  match s with
  | EmptyString => EmptyString
  | String c EmptyString => if Ascii.eqb c (ascii_of_nat 13) then EmptyString else s
  | String c t => String c (drop_return t)
  end.
Fixpoint drop_last_empty (l : list string) : list string :=
  match l with [] => [] | [a] => match a with EmptyString => [] | _ => [a] end | a :: t => a :: drop_last_empty t end.
Definition lines (s : string) : list string := let (l, ls) := lines_from s in map drop_return (drop_last_empty (l :: ls)).
(** `str::is_char_boundary` and slicing, which panics outside of the text and inside a character *)
Definition is_continuation (c : ascii) : bool := let k := N_of_ascii c in ((128 <=? k) && (k <? 192))%N.
Definition boundary (s : string) (i : nat) : bool :=
  match String.get i s with Some c => negb (is_continuation c) | None => Nat.eqb i (String.length s) end.
Definition slice (s : string) (a b : nat) : out string :=
  if (a <=? b)%nat && boundary s a && boundary s b then Got (substring a (b - a) s) else Crashed.
(** `&s[a..]` *)
Definition slice_from (s : string) (a : nat) : out string := slice s a (String.length s).

(** mod.rs:104-110 `into_lines` (line numbers are only used in messages) *)
Definition is_comment (line : string) : bool := prefix "*" (trim_start line).
Definition is_empty (line : string) : bool := match line with EmptyString => true | _ => false end.
Definition into_lines (text : string) : list string :=
  filter (fun line => negb (is_empty line)) (filter (fun line => negb (is_comment line)) (lines text)).

(** ** Reading the fields of a line *)
(** mod.rs:157-160 `ColumnLineContent` *)
Inductive column_line (R : Type) := Marker (text : string) | Data (column row value : string) (rest : R).
Arguments Marker {R}. Arguments Data {R}.
(** mod.rs:112-156 `ColumnRetriever` *)
Record reader := mk_reader {
  rest_of_line : Type;
  two_or_three : string -> out string;
  one_and_two : string -> out (string * string);
  is_column_marker_line : string -> out (column_line rest_of_line);
  two_through_four : string -> out (string * string * string * rest_of_line);
  five_and_six : rest_of_line -> out (option (string * string));
  one_through_three : string -> out (string * string * string * rest_of_line);
  four : rest_of_line -> out string
}.

(** free.rs:36-40 `two_or_three` *)
Definition free_two_or_three (line : string) : out string :=
  match split_whitespace line with v :: _ => Got v | [] => Rejected Syntax end.
(** free.rs:42-50 `one_and_two` *)
Definition free_one_and_two (line : string) : out (string * string) :=
  match split_whitespace line with one :: two :: _ => Got (one, two) | _ => Rejected Syntax end.
(** free.rs:52-67 `is_column_marker_line`; token.rs: the marker *)
Definition column_marker : string := "'MARKER'".
Definition free_is_column_marker_line (line : string) : out (column_line (list string)) :=
  match split_whitespace line with
  | two :: three :: four :: parts => Got (if String.eqb three column_marker then Marker four else Data two three four parts)
  | _ => Rejected Syntax
  end.
(** free.rs:69-80 `two_through_four` and 101-112 `one_through_three` *)
Definition free_three (line : string) : out (string * string * string * list string) :=
  match split_whitespace line with a :: b :: c :: parts => Got (a, b, c, parts) | _ => Rejected Syntax end.
(** free.rs:82-99 `five_and_six` *)
Definition free_five_and_six (parts : list string) : out (option (string * string)) :=
  match parts with
  | [] => Got None
  | [five; six] => Got (Some (five, six))
  | _ => Rejected Syntax
  end.
(** free.rs:114-119 `four` *)
Definition free_four (parts : list string) : out string := match parts with v :: _ => Got v | [] => Rejected Syntax end.
Definition free : reader :=
  mk_reader (list string) free_two_or_three free_one_and_two free_is_column_marker_line free_three free_five_and_six free_three free_four.

(** fixed.rs:43-57 `one_and_two`; the fields are at 1..3, 4..12, 14..22, 24..36, 39..47 and 49..61
    (fixed.rs:137-145) *)
Definition fixed_one_and_two (line : string) : out (string * string) :=
  let len := String.length line in
  if (4 <? len)%nat then
    let~ type_text := slice line 1 3 in
    let~ name := slice line 4 (Nat.min 12 len) in
    match trim_end name with EmptyString => Rejected Syntax | name => Got (type_text, name) end
  else Rejected Syntax.
(** fixed.rs:59-77 `is_column_marker_line` *)
Definition fixed_is_column_marker_line (line : string) : out (column_line string) :=
  let len := String.length line in
  if (36 <=? len)%nat then
    let~ three := slice line 14 22 in
    if String.eqb three column_marker then
      if (47 <=? len)%nat then let~ five := slice line 39 47 in Got (Marker five) else Rejected Syntax
    else
      let~ two := slice line 4 12 in
      let~ four := slice line 24 36 in
      let~ rest := slice_from line 36 in
      Got (Data (trim_end two) (trim_end three) (trim_start four) rest)
  else Rejected Syntax.
(** fixed.rs:79-89 `two_through_four` *)
Definition fixed_two_through_four (line : string) : out (string * string * string * string) :=
  if (36 <=? String.length line)%nat then
    let~ two := slice line 4 12 in
    let~ three := slice line 14 22 in
    let~ four := slice line 24 36 in
    let~ rest := slice_from line 36 in
    Got (trim_end two, trim_end three, trim_start four, rest)
  else Rejected Syntax.
(** fixed.rs:91-108 `five_and_six`: positions are relative to the end of the fourth field *)
Definition fixed_five_and_six (rest : string) : out (option (string * string)) :=
  if (25 <=? String.length rest)%nat then
    let~ five := slice rest 3 11 in
    let~ six := slice rest 13 25 in
    match trim_end five, trim_start six with
    | EmptyString, _ | _, EmptyString => Got None
    | five, six => Got (Some (five, six))
    end
  else Got None.
(** fixed.rs:110-122 `one_through_three` *)
Definition fixed_one_through_three (line : string) : out (string * string * string * string) :=
  if (14 <=? String.length line)%nat then
    let~ type_text := slice line 1 3 in
    let~ name := slice line 4 12 in
    let~ column := slice line 14 22 in
    let~ rest := slice_from line 22 in
    Got (type_text, trim_end name, trim_end column, rest)
  else Rejected Syntax.
(** fixed.rs:124-133 `four` *)
Definition fixed_four (rest : string) : out string :=
  if (14 <=? String.length rest)%nat then let~ value := slice rest 2 14 in Got (trim_start value) else Rejected Syntax.
Definition fixed : reader :=
  mk_reader string free_two_or_three fixed_one_and_two fixed_is_column_marker_line fixed_two_through_four fixed_five_and_six
    fixed_one_through_three fixed_four.

(** ** Sections *)
(** mod.rs:774-801 `FromStr for Section`, `Section::from_str` *)
Inductive section := SRows | SColumns | SRhs | SBounds | SRanges | SEndata.
Definition section_of (line : string) : out section :=
  if String.eqb line "ROWS" then Got SRows
  else if String.eqb line "COLUMNS" then Got SColumns
  else if String.eqb line "RHS" then Got SRhs
  else if String.eqb line "BOUNDS" then Got SBounds
  else if String.eqb line "RANGES" then Got SRanges
  else if String.eqb line "ENDATA" then Got SEndata
  else Rejected Syntax.
Definition section_eqb (a b : section) : bool :=
  match a, b with
  | SRows, SRows | SColumns, SColumns | SRhs, SRhs | SBounds, SBounds | SRanges, SRanges | SEndata, SEndata => true
  | _, _ => false
  end.
(** mod.rs:753-766 `try_parse_next_section` *)
Definition try_parse_next_section (line : string) (acceptable : list section) : out section :=
  let~ s := section_of line in
  if section_eqb s SEndata || existsb (section_eqb s) acceptable then Got s else Rejected Syntax.
(** mod.rs:768-772 `is_part_of_same_section` *)
Definition is_part_of_same_section (line : string) : bool := prefix " " line.

(** mod.rs:172-198 `parse_program_name` *)
Definition parse_program_name (R : reader) (lines : list string) : out (string * list string) :=
  match lines with
  | [] => Rejected Syntax
  | line :: lines =>
      if (String.length line <? 4)%nat then Rejected Syntax
      else
        let~ head := slice line 0 4 in
        if String.eqb head "NAME" then let~ tail := slice_from line 4 in let~ name := two_or_three R tail in Got (name, lines)
        else Rejected Syntax
  end.
(** mod.rs:214-250 `parse_objsense_section` *)
Definition parse_objsense_section (lines : list string) : out (direction * list string) :=
  match lines with
  | [] => Rejected Syntax
  | line :: lines =>
      if String.eqb (trim_end line) "ROWS" then Got (Minimize, lines)
      else if String.eqb (trim_end line) "OBJSENSE" then
        match lines with
        | line :: next :: lines =>
            if prefix "ROWS" next then
              let t := trim_end line in
              if String.eqb t "  MINIMIZE" || String.eqb t "  MIN" then Got (Minimize, lines)
              else if String.eqb t "  MAXIMIZE" || String.eqb t "  MAX" then Got (Maximize, lines)
              else Rejected Syntax
            else Rejected Syntax
        | _ => Rejected Syntax
        end
      else Rejected Syntax
  end.

(** ** Rows *)
(** mod.rs:803-832 `RowType::from_str`: only the first character of the word is looked at; [None] is the cost row *)
Definition row_type_of (word : string) : out (option relation_kind) :=
  let~ first := slice word 0 1 in
  if String.eqb first "N" then Got None
  else if String.eqb first "L" then Got (Some KLess)
  else if String.eqb first "E" then Got (Some KEqual)
  else if String.eqb first "G" then Got (Some KGreater)
  else Rejected Syntax.
(** mod.rs:252-292 `parse_row_section` *)
Fixpoint parse_row_section (R : reader) (lines : list string) (cost : option string) (rows : list mrow) :
    out (option string * list mrow * list string) :=
  match lines with
  | [] => Rejected Syntax
  | line :: lines =>
      if is_part_of_same_section line then
        let~ (type_text, name) := one_and_two R line in
        let~ t := row_type_of type_text in
        match t with
        | None => match cost with Some _ => Rejected Syntax | None => parse_row_section R lines (Some name) rows end
        | Some k => parse_row_section R lines cost (rows ++ [mk_mrow name k])
        end
      else
        let~ _ := try_parse_next_section line [SColumns] in Got (cost, rows, lines)
  end.
(** sorting by name, as insertion sort; rows with the same name are refused afterwards, so their order does not
    matter *)
Fixpoint insert_row (r : mrow) (l : list mrow) : list mrow :=
  match l with [] => [r] | a :: t => if String.leb (row_name r) (row_name a) then r :: l else a :: insert_row r t end.
Definition sort_rows (l : list mrow) : list mrow := fold_right insert_row [] l.
(** `windows(2)` with equal keys *)
Fixpoint adjacent {A} (same : A -> A -> bool) (l : list A) : bool :=
  match l with a :: (b :: _) as t => same a b || adjacent same t | _ => false end.
(** mod.rs:294-313 `check_row_section_consistency`; the binary search is modelled by what it finds *)
Definition check_row_section_consistency (cost : option string) (rows : list mrow) : out (string * list mrow) :=
  match cost with
  | None => Rejected Inconsistent
  | Some name =>
      let rows := sort_rows rows in
      if existsb (fun r => String.eqb (row_name r) name) rows then Rejected Inconsistent
      else if adjacent (fun a b => String.eqb (row_name a) (row_name b)) rows then Rejected Inconsistent
      else Got (name, rows)
  end.
(** mod.rs:334-351 `build_row_index` and the lookups in the map; names are unique here, so it never fails *)
Fixpoint row_index (rows : list mrow) (name : string) : option nat :=
  match rows with
  | [] => None
  | r :: t => if String.eqb (row_name r) name then Some 0%nat else option_map S (row_index t name)
  end.

(** ** Columns *)
(** the variables of mod.rs:359-368 *)
Record columns_state := mk_cols {
  cs_done : list mcolumn;
  cs_values : list (nat * Qc);
  cs_costs : list (nat * Qc);
  cs_active : option string;
  cs_integer : bool
}.
Definition same_index {A} (a b : nat * A) : bool := Nat.eqb (fst a) (fst b).
(** mod.rs:464-488 `save_to_column_collector`; equal indices are refused, so that the sort need not be stable *)
Definition save_to_column_collector (new : option string) (s : columns_state) : out columns_state :=
  match cs_active s with
  | None => Got (mk_cols (cs_done s) (cs_values s) (cs_costs s) new (cs_integer s))
  | Some name =>
      let values := sort_by fst (cs_values s) in
      if adjacent same_index values then Rejected Inconsistent
      else Got (mk_cols (cs_done s ++ [mk_mcolumn name (cs_integer s) values]) [] (cs_costs s) new (cs_integer s))
  end.
(** mod.rs:413-429: the closure `save_pair` *)
Definition save_column_pair (b : build) (cost_name : string) (rows : list mrow) (row value : string) (s : columns_state) : out columns_state :=
  let~ v := parse_number b value in
  match row_index rows row with
  | None =>
      if String.eqb row cost_name then Got (mk_cols (cs_done s) (cs_values s) (cs_costs s ++ [(length (cs_done s), v)]) (cs_active s) (cs_integer s))
      else Rejected Inconsistent
  | Some i => Got (mk_cols (cs_done s) (cs_values s ++ [(i, v)]) (cs_costs s) (cs_active s) (cs_integer s))
  end.
(** mod.rs:370-443: one line of the section *)
Definition column_section_line (b : build) (R : reader) (cost_name : string) (rows : list mrow) (line : string) (s : columns_state) : out columns_state :=
  let~ content := is_column_marker_line R line in
  match content with
  | Marker text =>
      let~ s := save_to_column_collector None s in
      if String.eqb text "'INTORG'" then Got (mk_cols (cs_done s) (cs_values s) (cs_costs s) (cs_active s) true)
      else if String.eqb text "'INTEND'" then Got (mk_cols (cs_done s) (cs_values s) (cs_costs s) (cs_active s) false)
      else Rejected Syntax
  | Data column row value rest =>
      let~ s :=
        match cs_active s with
        | Some active => if String.eqb active column then Got s else save_to_column_collector (Some column) s
        | None => Got (mk_cols (cs_done s) (cs_values s) (cs_costs s) (Some column) (cs_integer s))
        end in
      let~ s := save_column_pair b cost_name rows row value s in
      let~ more := five_and_six R rest in
      match more with
      | Some (row, value) => save_column_pair b cost_name rows row value s
      | None => Got s
      end
  end.
(** mod.rs:353-459 `parse_column_section` *)
Fixpoint parse_column_section (b : build) (R : reader) (cost_name : string) (rows : list mrow) (lines : list string) (s : columns_state) :
    out (list mcolumn * list (nat * Qc) * section * list string) :=
  match lines with
  | [] => Rejected Syntax
  | line :: lines =>
      if is_part_of_same_section line then
        let~ s := column_section_line b R cost_name rows line s in
        parse_column_section b R cost_name rows lines s
      else
        let~ next := try_parse_next_section line [SRhs; SRanges; SBounds] in
        let~ s := save_to_column_collector None s in
        Got (cs_done s, cs_costs s, next, lines)
  end.
(** mod.rs:505-515 `build_column_index` and the lookups in the map: the last column with a name *)
Fixpoint column_index (columns : list mcolumn) (name : string) : option nat :=
  match columns with
  | [] => None
  | c :: t =>
      match column_index t name with
      | Some j => Some (S j)
      | None => if String.eqb (col_name c) name then Some 0%nat else None
      end
  end.

(** ** Right-hand sides, ranges and bounds *)
(** the variables of mod.rs:555-557 and 668-670 *)
Record groups_state (A : Type) := mk_groups { gs_done : list (group A); gs_values : list (nat * A); gs_active : option string }.
Arguments mk_groups {A}. Arguments gs_done {A}. Arguments gs_values {A}. Arguments gs_active {A}.
(** mod.rs:627-652 `save_to_group_collector`; the sort there is not stable: the order of the bounds of one
    variable in one group is the order in the file here, it is arbitrary in the code (for more than 20 entries) *)
Definition save_to_group_collector {A} (duplicates : bool) (new : option string) (s : groups_state A) : out (groups_state A) :=
  match gs_active s with
  | None => Got (mk_groups (gs_done s) (gs_values s) new)
  | Some name =>
      let values := sort_by fst (gs_values s) in
      if negb duplicates && adjacent same_index values then Rejected Inconsistent
      else Got (mk_groups (gs_done s ++ [mk_group name values]) [] new)
  end.
(** mod.rs:596-606 and 713-722: changing to the group of a line *)
Definition change_group {A} (duplicates : bool) (name : string) (s : groups_state A) : out (groups_state A) :=
  match gs_active s with
  | Some active => if String.eqb active name then Got s else save_to_group_collector duplicates (Some name) s
  | None => Got (mk_groups (gs_done s) (gs_values s) (Some name))
  end.
Definition add_value {A} (j : nat) (v : A) (s : groups_state A) : groups_state A := mk_groups (gs_done s) (gs_values s ++ [(j, v)]) (gs_active s).
(** mod.rs:608-617: the closure `save_pair`; the number is read also when the row is not known *)
Definition save_group_pair (b : build) (rows : list mrow) (row value : string) (s : groups_state Qc) : out (groups_state Qc) :=
  match row_index rows row, parse_number b value with
  | _, Crashed => Crashed
  | None, _ => Rejected Inconsistent
  | Some _, Rejected e => Rejected e
  | Some i, Got v => Got (add_value i v s)
  end.
(** mod.rs:586-625 `parse_value_section_line` *)
Definition parse_value_section_line (b : build) (R : reader) (rows : list mrow) (line : string) (s : groups_state Qc) : out (groups_state Qc) :=
  let~ (name, row, value, rest) := two_through_four R line in
  let~ s := change_group false name s in
  let~ s := save_group_pair b rows row value s in
  let~ more := five_and_six R rest in
  match more with
  | Some (row, value) => save_group_pair b rows row value s
  | None => Got s
  end.
(** mod.rs:543-584 `parse_optional_section` *)
Fixpoint parse_optional_section (b : build) (R : reader) (valid : list section) (rows : list mrow) (lines : list string) (s : groups_state Qc) :
    out (list (group Qc) * section * list string) :=
  match lines with
  | [] => Rejected Syntax
  | line :: lines =>
      if is_part_of_same_section line then
        let~ s := parse_value_section_line b R rows line s in
        parse_optional_section b R valid rows lines s
      else
        let~ next := try_parse_next_section line valid in
        let~ s := save_to_group_collector false None s in
        Got (gs_done s, next, lines)
  end.
(** mod.rs:654-662 `check_ranges_consistency` *)
Definition check_ranges_consistency (ranges : list (group Qc)) : out unit :=
  if has_duplicate (map fst (ungroup ranges)) then Rejected Inconsistent else Got tt.
(** mod.rs:724-746: the type of a bound; `SC` is not implemented *)
Definition bound_type_of (b : build) (R : reader) (text : string) (rest : rest_of_line R) : out bound_type :=
  let valued (f : Qc -> bound_type) := let~ value := four R rest in let~ v := parse_number b value in Got (f v) in
  if String.eqb text "FR" then Got Mps.Free
  else if String.eqb text "MI" then Got LowerMinusInfinity
  else if String.eqb text "PL" then Got UpperInfinity
  else if String.eqb text "BV" then Got Binary
  else if String.eqb text "LO" then valued LowerContinuous
  else if String.eqb text "UP" then valued UpperContinuous
  else if String.eqb text "FX" then valued Fixed
  else if String.eqb text "LI" then valued LowerInteger
  else if String.eqb text "UI" then valued UpperInteger
  else if String.eqb text "SC" then Crashed
  else Rejected Syntax.
(** mod.rs:699-751 `parse_bound_line` *)
Definition parse_bound_line (b : build) (R : reader) (columns : list mcolumn) (line : string) (s : groups_state bound_type) : out (groups_state bound_type) :=
  let~ (type_text, name, column, rest) := one_through_three R line in
  match column_index columns column with
  | None => Rejected Inconsistent
  | Some j =>
      let~ s := change_group true name s in
      let~ t := bound_type_of b R type_text rest in
      Got (add_value j t s)
  end.
(** mod.rs:664-697 `parse_bounds_section` *)
Fixpoint parse_bounds_section (b : build) (R : reader) (columns : list mcolumn) (lines : list string) (s : groups_state bound_type) :
    out (list (group bound_type) * list string) :=
  match lines with
  | [] => Rejected Syntax
  | line :: lines =>
      if is_part_of_same_section line then
        let~ s := parse_bound_line b R columns line s in
        parse_bounds_section b R columns lines s
      else
        let~ _ := try_parse_next_section line [] in
        let~ s := save_to_group_collector true None s in
        Got (gs_done s, lines)
  end.

(** ** The whole file: mod.rs:40-93 `parse`, with free.rs:28-30 and fixed.rs:28-30 *)
Definition no_groups {A} : groups_state A := mk_groups [] [] None.
Definition parse_with (R : reader) (b : build) (text : string) : out mps :=
  let~ (name, lines) := parse_program_name R (into_lines text) in
  let~ (objective, lines) := parse_objsense_section lines in
  let~ (cost, rows, lines) := parse_row_section R lines None [] in
  let~ (cost_name, rows) := check_row_section_consistency cost rows in
  let~ (columns, costs, next, lines) := parse_column_section b R cost_name rows lines (mk_cols [] [] [] None false) in
  let~ (rhss, next, lines) :=
    (if section_eqb next SRhs then parse_optional_section b R [SRanges; SBounds] rows lines no_groups else Got ([], next, lines)) in
  let~ (ranges, next, lines) :=
    (if section_eqb next SRanges then parse_optional_section b R [SBounds] rows lines no_groups else Got ([], next, lines)) in
  let~ _ := check_ranges_consistency ranges in
  let~ (bounds, lines) :=
    (if section_eqb next SBounds then parse_bounds_section b R columns lines no_groups else Got ([], lines)) in
  match lines with
  | [] => Got (mk_mps name objective cost_name costs rows columns rhss ranges bounds)
  | _ :: _ => Rejected Syntax
  end.
Definition parse_free (b : build) (text : string) : out mps := parse_with free b text.
Definition parse_fixed (b : build) (text : string) : out mps := parse_with fixed b text.
