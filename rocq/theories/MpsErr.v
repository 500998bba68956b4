(** * The errors of reading MPS files: model of /repo/src/io/error.rs and of the messages of /repo/src/io/mps/parse

    The functions of MpsParse.v, with the error values that they return, including their texts and the lines they
    point to.  The errors of the standard library that are wrapped (`ParseIntError`) are modelled without their text, and the
    private function `trace` (error.rs:169-184), which nothing calls, is left out. *)
From Coq Require DecimalString.
From Verif Require Export MpsParse.
Local Open Scope string_scope.
Local Open Scope list_scope.

(** ** Error values: io/error.rs *)
(** a text, or a text in which the number and the contents of a line are filled in *)
Inductive description := Plain (text : string) | OfLine (before : string) (number : nat) (between line after : string).
(** error.rs:73-76 `Parse` and 191-196 `Source` *)
Inductive parse_error := mk_error (d : description) (s : option cause)
with cause := AtLine (number : nat) (line : string) | Wrapped (e : parse_error) | Foreign.
(** error.rs:118-120 `new`, 132-141 `with_location`, 144-149 `wrap`, 161-166 `wrap_other` *)
Definition new (text : string) : parse_error := mk_error (Plain text) None.
Definition with_location (text : string) (location : nat * string) : parse_error :=
  let (number, line) := location in mk_error (Plain text) (Some (AtLine number line)).
Definition wrap (e : parse_error) (d : description) : parse_error := mk_error d (Some (Wrapped e)).
Definition wrap_other (text : string) : parse_error := mk_error (Plain text) (Some Foreign).
(** error.rs:15-33 `Import` as far as it comes from the text of a file; error.rs:207-210 `Inconsistency` *)
Inductive import_error := SyntaxError (e : parse_error) | Inconsistency (text : string).
Inductive tout (A : Type) := TGot (a : A) | TErr (e : import_error) | TCrash.
Arguments TGot {A}. Arguments TErr {A}. Arguments TCrash {A}.
Definition tbind {A B} (x : tout A) (f : A -> tout B) : tout B :=
  match x with TGot a => f a | TErr e => TErr e | TCrash => TCrash end.
Notation "'let!' x := e 'in' f" := (tbind e (fun x => f)) (at level 200, x pattern, e at level 200, f at level 200).
(** a function that can fail for one reason *)
Definition explain {A} (x : out A) (e : import_error) : tout A :=
  match x with Got a => TGot a | Rejected _ => TErr e | Crashed => TCrash end.

(** ** Writing errors *)
(** `format!("{}", number)` *)
Definition show_number (n : nat) : string := DecimalString.NilZero.string_of_uint (Nat.to_uint n).
Definition render (d : description) : string :=
  match d with
  | Plain text => text
  | OfLine before number between line after => before ++ show_number number ++ between ++ line ++ after
  end%string.
(** error.rs:80-84 `Display for Parse`, with the line feed of `writeln!` *)
Definition display_parse (e : parse_error) : string := let (d, _) := e in ("ParseError: " ++ render d ++ String newline "")%string.
(** error.rs:227-231 `Display for Inconsistency`: `write!(f, "ProgramError: {}", self)` writes [self] again with the same
    function.  [fuel] bounds the depth of the calls. *)
Fixpoint display_inconsistency (fuel : nat) (text : string) : res string :=
  match fuel with
  | 0%nat => Fuel
  | S fuel' => let* self := display_inconsistency fuel' text in Ok ("ProgramError: " ++ self)%string
  end.
(** error.rs:46-55 `Display for Import` *)
Definition display (fuel : nat) (e : import_error) : res string :=
  match e with SyntaxError e => Ok (display_parse e) | Inconsistency text => display_inconsistency fuel text end.
(** error.rs:57-66, 86-96, 233-237 `source`: the error that caused this one, as a user of the trait `Error` sees it.
    [OfImport] is an error of the import, [OfParse] and [OfProgram] are the errors inside. *)
Inductive any_error := OfImport (e : import_error) | OfParse (e : parse_error) | OfProgram (text : string) | OfStd.
Definition source (e : any_error) : option any_error :=
  match e with
  | OfImport (SyntaxError (mk_error _ s)) | OfParse (mk_error _ s) => match s with Some Foreign => Some OfStd | _ => None end
  | OfImport (Inconsistency _) => None
  | OfProgram text => Some (OfProgram text)
  | OfStd => None
  end.
(** the loop `while let Some(cause) = error.source()` of a user who writes down all causes *)
Fixpoint chain (fuel : nat) (e : any_error) : res (list any_error) :=
  match fuel with
  | 0%nat => Fuel
  | S fuel' => match source e with None => Ok [e] | Some e' => let* l := chain fuel' e' in Ok (e :: l) end
  end.
(** the lines that an error tells of *)
Definition told (d : description) : list (nat * string) := match d with Plain _ => [] | OfLine _ number _ line _ => [(number, line)] end.
Fixpoint places (e : parse_error) : list (nat * string) :=
  let (d, s) := e in
  told d ++ match s with Some (AtLine number line) => [(number, line)] | Some (Wrapped e) => places e | _ => [] end.
Definition error_places (e : import_error) : list (nat * string) := match e with SyntaxError e => places e | Inconsistency _ => [] end.

(** ** The messages of the readers of lines *)
Record teller (R : reader) := mk_teller {
  tell_one_and_two : string -> string;
  tell_marker_line : string -> string;
  tell_two_through_four : string -> string;
  tell_five_and_six : rest_of_line R -> string;
  tell_one_through_three : string -> string;
  tell_four : rest_of_line R -> string
}.
Arguments tell_one_and_two {R}. Arguments tell_marker_line {R}. Arguments tell_two_through_four {R}. Arguments tell_five_and_six {R}.
Arguments tell_one_through_three {R}. Arguments tell_four {R}.
Definition could_not (field : string) : string := ("Could not read " ++ field ++ " field")%string.
(** free.rs:52-80: the first word that is missing *)
Definition missing_word (names : list string) (line : string) : string :=
  could_not (nth (length (split_whitespace line)) names "").
(** free.rs:42-119 *)
Definition free_teller : teller free :=
  mk_teller free
    (missing_word ["first"; "second"])
    (missing_word ["second"; "third"; "fourth"])
    (missing_word ["second"; "third"; "fourth"])
    (fun parts => match parts with [_] => "Line has a fifth element, but no sixth" | _ => "Line has more than 6 elements" end)
    (missing_word ["first"; "second"; "third"])
    (fun _ => "Could not read value for bound.").
(** fixed.rs:43-133 *)
Definition fixed_teller : teller fixed :=
  mk_teller fixed
    (fun line => if (4 <? String.length line)%nat then "Empty row name." else "Line is too short.")
    (fun line => if (36 <=? String.length line)%nat then "Line is too short to be a marker line." else "Line is too short.")
    (fun _ => "Line is too short.")
    (fun _ => "")
    (fun _ => "Line is too short.")
    (fun _ => "Line doesn't contain another value, it's too short.").
(** number/parse.rs:77-118: which part of a number is not read *)
Definition not_a_number (part text : string) : parse_error := wrap_other ("Failed to parse " ++ part ++ " """ ++ text ++ """ as u64.").
Definition number_error (text : string) : parse_error :=
  let text := match text with String "-" t => t | _ => text end in
  match split_point text with
  | (whole, None) => not_a_number "entire value" whole
  | (whole, Some rest) => match parse_part whole with Rejected _ => not_a_number "integer part" whole | _ => not_a_number "mantissa part" rest end
  end.
Definition parse_number_t (b : build) (text : string) : tout Qc :=
  explain (parse_number b text) (SyntaxError (wrap (number_error text) (Plain "Couldn't parse (row name, value) pair"))).

(** ** Sections: io/mps/parse/mod.rs *)
Definition located := (nat * string)%type.
(** 104-110 `into_lines`, with the numbers of the lines *)
Fixpoint number_lines (n : nat) (l : list string) : list located :=
  match l with [] => [] | line :: t => (n, line) :: number_lines (S n) t end.
Definition into_lines_t (text : string) : list located :=
  filter (fun x => negb (is_empty (snd x))) (filter (fun x => negb (is_comment (snd x))) (number_lines 1 (lines text))).
Definition quoted (before text after : string) : string := (before ++ """" ++ text ++ """" ++ after)%string.
(** mps/mod.rs:131-142 `Display for Section` *)
Definition section_name (s : section) : string :=
  match s with SRows => "ROWS" | SColumns => "COLUMNS" | SRhs => "RHS" | SBounds => "BOUNDS" | SRanges => "RANGES" | SEndata => "ENDATA" end.
(** 753-766 `try_parse_next_section` *)
Definition try_parse_next_section_t (line : string) (acceptable : list section) : tout section :=
  let! s := explain (section_of line)
              (SyntaxError (wrap (new (quoted "Unknown section header " line ".")) (Plain (quoted "Could not parse new section header " line ".")))) in
  if section_eqb s SEndata || existsb (section_eqb s) acceptable then TGot s
  else TErr (SyntaxError (new ("Expected the ENDATA section headers, found the " ++ section_name s ++ " section."))).
(** 172-198 `parse_program_name`, wrapped at 48 *)
Definition name_error (e : parse_error) : import_error := SyntaxError (wrap e (Plain "Error while parsing reading the program name.")).
Definition parse_program_name_t (R : reader) (lines : list located) : tout (string * list located) :=
  match lines with
  | [] => TErr (name_error (new "No line to read, is the file empty?"))
  | (number, line) :: lines =>
      if (String.length line <? 4)%nat then TErr (name_error (with_location "Line too short." (number, line)))
      else
        let! head := explain (slice line 0 4) (name_error (new "")) in
        if String.eqb head "NAME" then
          let! tail := explain (slice_from line 4) (name_error (new "")) in
          let! name := explain (two_or_three R tail)
            (name_error (wrap (new "No name found.") (OfLine "Could not read program name from line " number ". Ths line looked like """ line """"))) in
          TGot (name, lines)
        else TErr (name_error (with_location (quoted (quoted "Expected a " "NAME" " indicator, found ") head " instead") (number, line)))
  end.
(** 214-250 `parse_objsense_section` *)
Definition parse_objsense_section_t (lines : list located) : tout (direction * list located) :=
  match lines with
  | [] => TErr (SyntaxError (new "No line to read, is the program more than a name?"))
  | (number, line) :: lines =>
      if String.eqb (trim_end line) "ROWS" then TGot (Minimize, lines)
      else if String.eqb (trim_end line) "OBJSENSE" then
        match lines with
        | [] => TErr (SyntaxError (new "Program can't end in the OBJSENSE section."))
        | (number, line) :: lines =>
            match lines with
            | (_, next) :: lines =>
                if prefix "ROWS" next then
                  let t := trim_end line in
                  if String.eqb t "  MINIMIZE" || String.eqb t "  MIN" then TGot (Minimize, lines)
                  else if String.eqb t "  MAXIMIZE" || String.eqb t "  MAX" then TGot (Maximize, lines)
                  else TErr (SyntaxError (with_location ("Can't read objective " ++ t) (number, line)))
                else TErr (SyntaxError (new "Expected the ROWS section next."))
            | [] => TErr (SyntaxError (new "Expected the ROWS section next."))
            end
        end
      else TErr (SyntaxError (with_location (quoted "Line contents " line " were unexpected") (number, line)))
  end.
(** 252-292 `parse_row_section` *)
Fixpoint parse_row_section_t (R : reader) (T : teller R) (lines : list located) (cost : option string) (rows : list mrow) :
    tout (option string * list mrow * list located) :=
  match lines with
  | [] => TErr (SyntaxError (new "Section ended sooner than expected."))
  | (number, line) :: lines =>
      if is_part_of_same_section line then
        let! (type_text, name) := explain (one_and_two R line) (SyntaxError (new (tell_one_and_two T line))) in
        let! t := explain (row_type_of type_text)
          (SyntaxError (wrap (new (quoted "Row type " type_text " unknown.")) (OfLine "Couldn't parse row type on line " number ": """ line """"))) in
        match t with
        | None =>
            match cost with
            | Some _ => TErr (SyntaxError (with_location "Second cost row detected. This is not supported." (number, line)))
            | None => parse_row_section_t R T lines (Some name) rows
            end
        | Some k => parse_row_section_t R T lines cost (rows ++ [mk_mrow name k])
        end
      else
        let! _ := try_parse_next_section_t line [SColumns] in TGot (cost, rows, lines)
  end.
(** the first of two equal neighbours, `windows(2)` with `find` *)
Fixpoint first_adjacent {A} (same : A -> A -> bool) (l : list A) : option A :=
  match l with a :: (b :: _) as t => if same a b then Some a else first_adjacent same t | _ => None end.
(** 294-313 `check_row_section_consistency` *)
Definition check_row_section_consistency_t (cost : option string) (rows : list mrow) : tout (string * list mrow) :=
  match cost with
  | None => TErr (Inconsistency "No cost name read.")
  | Some name =>
      let rows := sort_rows rows in
      if existsb (fun r => String.eqb (row_name r) name) rows then TErr (Inconsistency "Cost row name found in other rows.")
      else match first_adjacent (fun a b => String.eqb (row_name a) (row_name b)) rows with
           | Some r => TErr (Inconsistency ("Duplicate row name " ++ row_name r ++ " found."))
           | None => TGot (name, rows)
           end
  end.
(** 464-488 `save_to_column_collector` *)
Definition save_to_column_collector_t (new : option string) (s : columns_state) : tout columns_state :=
  match cs_active s with
  | None => TGot (mk_cols (cs_done s) (cs_values s) (cs_costs s) new (cs_integer s))
  | Some name =>
      let values := sort_by fst (cs_values s) in
      if adjacent same_index values then TErr (Inconsistency (quoted "Duplicate row for column " name ""))
      else TGot (mk_cols (cs_done s ++ [mk_mcolumn name (cs_integer s) values]) [] (cs_costs s) new (cs_integer s))
  end.
Definition row_not_known (row : string) : import_error := Inconsistency (quoted "Row " row " not known.").
(** 413-429: the closure `save_pair` *)
Definition save_column_pair_t (b : build) (cost_name : string) (rows : list mrow) (row value : string) (s : columns_state) : tout columns_state :=
  let! v := parse_number_t b value in
  match row_index rows row with
  | None =>
      if String.eqb row cost_name then TGot (mk_cols (cs_done s) (cs_values s) (cs_costs s ++ [(length (cs_done s), v)]) (cs_active s) (cs_integer s))
      else TErr (row_not_known row)
  | Some i => TGot (mk_cols (cs_done s) (cs_values s ++ [(i, v)]) (cs_costs s) (cs_active s) (cs_integer s))
  end.
(** 370-443: one line of the section *)
Definition column_section_line_t (b : build) (R : reader) (T : teller R) (cost_name : string) (rows : list mrow) (location : located)
    (s : columns_state) : tout columns_state :=
  let (number, line) := location in
  let! content := explain (is_column_marker_line R line)
    (SyntaxError (wrap (new (tell_marker_line T line)) (OfLine "Could not determine whether line " number " is a marker line: """ line """"))) in
  match content with
  | Marker text =>
      let! s := save_to_column_collector_t None s in
      if String.eqb text "'INTORG'" then TGot (mk_cols (cs_done s) (cs_values s) (cs_costs s) (cs_active s) true)
      else if String.eqb text "'INTEND'" then TGot (mk_cols (cs_done s) (cs_values s) (cs_costs s) (cs_active s) false)
      else TErr (SyntaxError (with_location (quoted "Marker type " text " unknown.") (number, line)))
  | Data column row value rest =>
      let! s :=
        match cs_active s with
        | Some active => if String.eqb active column then TGot s else save_to_column_collector_t (Some column) s
        | None => TGot (mk_cols (cs_done s) (cs_values s) (cs_costs s) (Some column) (cs_integer s))
        end in
      let! s := save_column_pair_t b cost_name rows row value s in
      let! more := explain (five_and_six R rest)
        (SyntaxError (wrap (new (tell_five_and_six T rest)) (OfLine "Line " number " contained an unexpected number of elements: """ line """"))) in
      match more with
      | Some (row, value) => save_column_pair_t b cost_name rows row value s
      | None => TGot s
      end
  end.
(** 353-459 `parse_column_section` *)
Fixpoint parse_column_section_t (b : build) (R : reader) (T : teller R) (cost_name : string) (rows : list mrow) (lines : list located) (s : columns_state) :
    tout (list mcolumn * list (nat * Qc) * section * list located) :=
  match lines with
  | [] => TErr (SyntaxError (new "Section ended sooner than expected."))
  | location :: lines =>
      if is_part_of_same_section (snd location) then
        let! s := column_section_line_t b R T cost_name rows location s in
        parse_column_section_t b R T cost_name rows lines s
      else
        let! next := try_parse_next_section_t (snd location) [SRhs; SRanges; SBounds] in
        let! s := save_to_column_collector_t None s in
        TGot (cs_done s, cs_costs s, next, lines)
  end.
(** 627-652 `save_to_group_collector` *)
Definition save_to_group_collector_t {A} (duplicates : bool) (new : option string) (s : groups_state A) : tout (groups_state A) :=
  match gs_active s with
  | None => TGot (mk_groups (gs_done s) (gs_values s) new)
  | Some name =>
      let values := sort_by fst (gs_values s) in
      match (if duplicates then None else first_adjacent same_index values) with
      | Some e => TErr (Inconsistency (quoted (quoted "Duplicate row id " (show_number (fst e)) " for group ") name ""))
      | None => TGot (mk_groups (gs_done s ++ [mk_group name values]) [] new)
      end
  end.
(** 596-606 and 713-722 *)
Definition change_group_t {A} (duplicates : bool) (name : string) (s : groups_state A) : tout (groups_state A) :=
  match gs_active s with
  | Some active => if String.eqb active name then TGot s else save_to_group_collector_t duplicates (Some name) s
  | None => TGot (mk_groups (gs_done s) (gs_values s) (Some name))
  end.
(** 608-617: the closure `save_pair` *)
Definition save_group_pair_t (b : build) (rows : list mrow) (row value : string) (s : groups_state Qc) : tout (groups_state Qc) :=
  match row_index rows row, parse_number_t b value with
  | _, TCrash => TCrash
  | None, _ => TErr (row_not_known row)
  | Some _, TErr e => TErr e
  | Some i, TGot v => TGot (add_value i v s)
  end.
(** 586-625 `parse_value_section_line` *)
Definition parse_value_section_line_t (b : build) (R : reader) (T : teller R) (rows : list mrow) (line : string) (s : groups_state Qc) : tout (groups_state Qc) :=
  let! (name, row, value, rest) := explain (two_through_four R line) (SyntaxError (new (tell_two_through_four T line))) in
  let! s := change_group_t false name s in
  let! s := save_group_pair_t b rows row value s in
  let! more := explain (five_and_six R rest) (SyntaxError (wrap (new (tell_five_and_six T rest)) (Plain "Line contained an unexpected number of elements"))) in
  match more with
  | Some (row, value) => save_group_pair_t b rows row value s
  | None => TGot s
  end.
(** 543-584 `parse_optional_section` *)
Definition ended_sooner : import_error := SyntaxError (new (quoted "Section " "COLUMNS" " ended sooner than expected.")).
Fixpoint parse_optional_section_t (b : build) (R : reader) (T : teller R) (valid : list section) (rows : list mrow) (lines : list located) (s : groups_state Qc) :
    tout (list (group Qc) * section * list located) :=
  match lines with
  | [] => TErr ended_sooner
  | (_, line) :: lines =>
      if is_part_of_same_section line then
        let! s := parse_value_section_line_t b R T rows line s in
        parse_optional_section_t b R T valid rows lines s
      else
        let! next := try_parse_next_section_t line valid in
        let! s := save_to_group_collector_t false None s in
        TGot (gs_done s, next, lines)
  end.
(** 654-662 `check_ranges_consistency` *)
Definition check_ranges_consistency_t (ranges : list (group Qc)) : tout unit :=
  explain (check_ranges_consistency ranges) (Inconsistency "Each row can have at most one range value").
(** 724-746: the type of a bound *)
Definition bound_type_of_t (b : build) (R : reader) (T : teller R) (text : string) (rest : rest_of_line R) : tout bound_type :=
  let valued (f : Qc -> bound_type) :=
    let! value := explain (four R rest) (SyntaxError (new (tell_four T rest))) in let! v := parse_number_t b value in TGot (f v) in
  if String.eqb text "FR" then TGot Mps.Free
  else if String.eqb text "MI" then TGot LowerMinusInfinity
  else if String.eqb text "PL" then TGot UpperInfinity
  else if String.eqb text "BV" then TGot Binary
  else if String.eqb text "LO" then valued LowerContinuous
  else if String.eqb text "UP" then valued UpperContinuous
  else if String.eqb text "FX" then valued Fixed
  else if String.eqb text "LI" then valued LowerInteger
  else if String.eqb text "UI" then valued UpperInteger
  else if String.eqb text "SC" then TCrash
  else TErr (SyntaxError (new (quoted "Bound type " text " unknown."))).
(** 699-751 `parse_bound_line` *)
Definition parse_bound_line_t (b : build) (R : reader) (T : teller R) (columns : list mcolumn) (line : string) (s : groups_state bound_type) : tout (groups_state bound_type) :=
  let! (type_text, name, column, rest) := explain (one_through_three R line) (SyntaxError (new (tell_one_through_three T line))) in
  match column_index columns column with
  | None => TErr (Inconsistency (quoted "Column name " column " unknown"))
  | Some j =>
      let! s := change_group_t true name s in
      let! t := bound_type_of_t b R T type_text rest in
      TGot (add_value j t s)
  end.
(** 664-697 `parse_bounds_section` *)
Fixpoint parse_bounds_section_t (b : build) (R : reader) (T : teller R) (columns : list mcolumn) (lines : list located) (s : groups_state bound_type) :
    tout (list (group bound_type) * list located) :=
  match lines with
  | [] => TErr ended_sooner
  | (_, line) :: lines =>
      if is_part_of_same_section line then
        let! s := parse_bound_line_t b R T columns line s in
        parse_bounds_section_t b R T columns lines s
      else
        let! _ := try_parse_next_section_t line [] in
        let! s := save_to_group_collector_t true None s in
        TGot (gs_done s, lines)
  end.
(** 40-93 `parse` *)
Definition parse_lines_t (R : reader) (T : teller R) (b : build) (lines : list located) : tout mps :=
  let! (name, lines) := parse_program_name_t R lines in
  let! (objective, lines) := parse_objsense_section_t lines in
  let! (cost, rows, lines) := parse_row_section_t R T lines None [] in
  let! (cost_name, rows) := check_row_section_consistency_t cost rows in
  let! (columns, costs, next, lines) := parse_column_section_t b R T cost_name rows lines (mk_cols [] [] [] None false) in
  let! (rhss, next, lines) :=
    (if section_eqb next SRhs then parse_optional_section_t b R T [SRanges; SBounds] rows lines no_groups else TGot ([], next, lines)) in
  let! (ranges, next, lines) :=
    (if section_eqb next SRanges then parse_optional_section_t b R T [SBounds] rows lines no_groups else TGot ([], next, lines)) in
  let! _ := check_ranges_consistency_t ranges in
  let! (bounds, lines) :=
    (if section_eqb next SBounds then parse_bounds_section_t b R T columns lines no_groups else TGot ([], lines)) in
  match lines with
  | [] => TGot (mk_mps name objective cost_name costs rows columns rhss ranges bounds)
  | _ :: _ => TErr (SyntaxError (new "File parsed successfully, but it has nonempty lines at the end"))
  end.
Definition parse_with_t (R : reader) (T : teller R) (b : build) (text : string) : tout mps := parse_lines_t R T b (into_lines_t text).
Definition parse_free_t (b : build) (text : string) : tout mps := parse_with_t free free_teller b text.
Definition parse_fixed_t (b : build) (text : string) : tout mps := parse_with_t fixed fixed_teller b text.
