(** * Builds with debug assertions: from the text of a file to a solution

    The functions of MpsParse.v, Mps.v and TextPipeline.v as a debug build runs them: every `debug_assert!` is
    evaluated, at the place where it stands, and one that fails is a panic.  Arithmetic overflow is checked: numbers
    are read with [Checked].

    Two assertions hold by the way the model is written: that the sign of a number is zero only if its digits are
    (number/parse.rs:58; the sign zero of [raw] is that case) and that `replace_existing_with` is not called with
    `Ordering::Equal` (convert.rs:273; the argument is one of the two others in every call). *)
From Verif Require Export TextPresolve PipelineD.
Local Open Scope string_scope.
Local Open Scope list_scope.

Definition oassert (condition : bool) : out unit := if condition then Got tt else Crashed.
(** collecting in a `HashSet` gives as many elements as there were *)
Fixpoint distinct_names (l : list string) : bool :=
  match l with [] => true | x :: t => negb (existsb (String.eqb x) t) && distinct_names t end.

(** ** Parsing: io/mps/parse/mod.rs *)
(** 768-772 `is_part_of_same_section` *)
Definition same_section_d (line : string) : out bool :=
  let~ _ := oassert (negb (Nat.eqb (String.length line) 0)) in Got (is_part_of_same_section line).
(** 252-292 `parse_row_section` *)
Fixpoint parse_row_section_d (R : reader) (lines : list string) (cost : option string) (rows : list mrow) :
    out (option string * list mrow * list string) :=
  match lines with
  | [] => Rejected Syntax
  | line :: lines =>
      let~ same := same_section_d line in
      if (same : bool) then
        let~ (type_text, name) := one_and_two R line in
        let~ t := row_type_of type_text in
        match t with
        | None => match cost with Some _ => Rejected Syntax | None => parse_row_section_d R lines (Some name) rows end
        | Some k => parse_row_section_d R lines cost (rows ++ [mk_mrow name k])
        end
      else
        let~ _ := try_parse_next_section line [SColumns] in Got (cost, rows, lines)
  end.
(** 333-350 `build_row_index` *)
Definition build_row_index_d (cost : string) (rows : list mrow) : out unit :=
  let~ _ := oassert (distinct_names (map row_name rows)) in
  oassert (negb (existsb (String.eqb cost) (map row_name rows))).
(** 369-433: one line of the section; the assertion is at 398: a marker changes the type of the variables *)
Definition column_section_line_d (R : reader) (cost_name : string) (rows : list mrow) (line : string) (s : columns_state) : out columns_state :=
  let~ content := is_column_marker_line R line in
  match content with
  | Marker text =>
      let~ s := save_to_column_collector None s in
      let~ integer := (if String.eqb text "'INTORG'" then Got true else if String.eqb text "'INTEND'" then Got false else Rejected Syntax) in
      let~ _ := oassert (negb (Bool.eqb (cs_integer s) integer)) in
      Got (mk_cols (cs_done s) (cs_values s) (cs_costs s) (cs_active s) integer)
  | Data column row value rest => column_section_line Checked R cost_name rows line s
  end.
(** 353-459 `parse_column_section` *)
Fixpoint parse_column_section_d (R : reader) (cost_name : string) (rows : list mrow) (lines : list string) (s : columns_state) :
    out (list mcolumn * list (nat * Qc) * section * list string) :=
  match lines with
  | [] => Rejected Syntax
  | line :: lines =>
      let~ same := same_section_d line in
      if (same : bool) then
        let~ s := column_section_line_d R cost_name rows line s in
        parse_column_section_d R cost_name rows lines s
      else
        let~ next := try_parse_next_section line [SRhs; SRanges; SBounds] in
        let~ s := save_to_column_collector None s in
        let~ _ := oassert (is_sorted (map fst (cs_costs s))) in
        Got (cs_done s, cs_costs s, next, lines)
  end.
(** 505-515 `build_column_index` *)
Definition build_column_index_d (columns : list mcolumn) : out unit := oassert (distinct_names (map col_name columns)).
(** 543-584 `parse_optional_section` *)
Fixpoint parse_optional_section_d (R : reader) (valid : list section) (rows : list mrow) (lines : list string) (s : groups_state Qc) :
    out (list (group Qc) * section * list string) :=
  match lines with
  | [] => Rejected Syntax
  | line :: lines =>
      let~ same := same_section_d line in
      if (same : bool) then
        let~ s := parse_value_section_line Checked R rows line s in
        parse_optional_section_d R valid rows lines s
      else
        let~ next := try_parse_next_section line valid in
        let~ s := save_to_group_collector false None s in
        Got (gs_done s, next, lines)
  end.
(** 662-697 `parse_bounds_section` *)
Fixpoint parse_bounds_section_d (R : reader) (columns : list mcolumn) (lines : list string) (s : groups_state bound_type) :
    out (list (group bound_type) * list string) :=
  match lines with
  | [] => Rejected Syntax
  | line :: lines =>
      let~ same := same_section_d line in
      if (same : bool) then
        let~ s := parse_bound_line Checked R columns line s in
        parse_bounds_section_d R columns lines s
      else
        let~ _ := try_parse_next_section line [] in
        let~ s := save_to_group_collector true None s in
        Got (gs_done s, lines)
  end.
(** 40-93 `parse`, with free.rs:28-30 and fixed.rs:28-30 *)
Definition parse_with_d (R : reader) (text : string) : out mps :=
  let~ (name, lines) := parse_program_name R (into_lines text) in
  let~ (objective, lines) := parse_objsense_section lines in
  let~ (cost, rows, lines) := parse_row_section_d R lines None [] in
  let~ (cost_name, rows) := check_row_section_consistency cost rows in
  let~ _ := build_row_index_d cost_name rows in
  let~ (columns, costs, next, lines) := parse_column_section_d R cost_name rows lines (mk_cols [] [] [] None false) in
  let~ _ := build_column_index_d columns in
  let~ (rhss, next, lines) :=
    (if section_eqb next SRhs then parse_optional_section_d R [SRanges; SBounds] rows lines no_groups else Got ([], next, lines)) in
  let~ (ranges, next, lines) :=
    (if section_eqb next SRanges then parse_optional_section_d R [SBounds] rows lines no_groups else Got ([], next, lines)) in
  let~ _ := check_ranges_consistency ranges in
  let~ (bounds, lines) :=
    (if section_eqb next SBounds then parse_bounds_section_d R columns lines no_groups else Got ([], lines)) in
  match lines with
  | [] => Got (mk_mps name objective cost_name costs rows columns rhss ranges bounds)
  | _ :: _ => Rejected Syntax
  end.
Definition parse_free_d (text : string) : out mps := parse_with_d free text.
Definition parse_fixed_d (text : string) : out mps := parse_with_d fixed text.

(** ** Converting: io/mps/convert.rs *)
(** 145-182 `process_bounds`, 290-305 `fill_in_default_lower_bounds`: the assertions are at 152, 294 and 296 *)
Definition process_bounds_d (vars : list variable) (bounds : list (group bound_type)) : out (list variable) :=
  let~ _ := oassert (forallb (fun v => negb (has_bound v)) vars) in
  let~ s := foldO process_entry (ungroup bounds) (map (fun v => (v, true, false)) vars) in
  if existsb (fun '(v, _, free) => free && has_bound v)%bool s then Rejected Inconsistent
  else
    let~ _ := oassert (Nat.eqb (length s) (length vars)) in
    let~ _ := oassert (forallb (fun '(v, needs, _) => negb needs || match v_lower v with None => true | Some _ => false end) s) in
    Got (map fill_default s).
(** 92-132 `compute_variable_info`: the assertions are at 99 and 105, and in the matrix (matrix.rs:396-401) *)
Definition compute_variable_info_d (m : mps) : out (list variable) :=
  let~ _ := oassert (distinct_names (map col_name (m_columns m))) in
  let~ _ := oassert (is_sorted (map fst (m_costs m))) in
  let~ vars := process_bounds_d (variables_from 0 (m_columns m) (m_costs m)) (m_bounds m) in
  let~ _ := oassert (major_ok (map col_values (m_columns m)) (length (map col_name (m_columns m))) (length (m_rows m))) in
  Got vars.
(** 401-423 `compute_constraint_types`: the assertions are at 406 and 407 *)
Definition compute_constraint_types_d (rows : list mrow) (ranges : list (nat * Qc)) : out (list rel) :=
  let~ _ := oassert (is_strict (map fst ranges)) in
  let~ _ := oassert (all_below (length rows) (map fst ranges)) in
  Got (types_from 0 rows ranges).
(** 445-509 `compute_b`: the assertions are at 458, 459 and 486, and in the vector (dense.rs:97) *)
Definition b_step_d (rows : list mrow) (st : list (option Qc) * list rel) (e : nat * Qc) : out (list (option Qc) * list rel) :=
  let (b, types) := st in
  let (i, value) := e in
  let~ current := oindex b i in
  let~ _ :=
    match current with
    | Some _ => let~ t := oindex types i in oassert (match t with Range _ => false | _ => true end)
    | None => Got tt
    end in
  b_step rows st e.
Definition compute_b_d (rhss : list (group Qc)) (types : list rel) (rows : list mrow) : out (list Qc * list rel) :=
  let~ _ := oassert (forallb (fun g => is_sorted (map fst (grp_values g))) rhss) in
  let~ _ := oassert (forallb (fun g => all_below (length rows) (map fst (grp_values g))) rhss) in
  let~ st := foldO (b_step_d rows) (ungroup rhss) (repeat None (length rows), types) in
  let b := map (fun o => match o with Some v => v | None => 0%Qc end) (fst st) in
  let~ _ := oassert (Nat.eqb (length b) (length rows)) in
  Got (b, snd st).
(** 315-332 `compute_constraint_info` *)
Definition compute_constraint_info_d (rows : list mrow) (rhss ranges : list (group Qc)) : out (list rel * list Qc) :=
  let~ ranges := compute_ranges rhss ranges (length rows) in
  let~ types := compute_constraint_types_d rows ranges in
  let~ r := compute_b_d rhss types rows in
  Got (snd r, fst r).
(** 51-73 `try_into`; general_form/mod.rs:211-237 `new` *)
Definition to_general_d (m : mps) : out general :=
  let~ vars := compute_variable_info_d m in
  let~ info := compute_constraint_info_d (m_rows m) (m_rhss m) (m_ranges m) in
  match new_general_d (m_objective m) (length (m_rows m)) (map col_values (m_columns m)) (fst info) (snd info) vars
          (map col_name (m_columns m)) 0 with
  | Ok g => Got g
  | _ => Crashed
  end.

(** ** All of it: tests/netlib/mod.rs:47-71, without and with presolving *)
Definition solve_with_d (parse_d : string -> out mps) (r : representation) (n : rule_name) (fuel : nat) (text : string) : out (res answer) :=
  let~ m := parse_d text in
  let~ g := to_general_d m in
  Got (solve_general_debug r n fuel g).
Definition solve_text_debug := solve_with_d parse_free_d.
Definition solve_fixed_text_debug := solve_with_d parse_fixed_d.
Definition presolve_with_d (on : site -> bool) (parse_d : string -> out mps) (r : representation) (n : rule_name) (fuel : nat) (text : string) : out (res answer) :=
  let~ m := parse_d text in
  let~ g := to_general_d m in
  Got (presolve_and_solve_debug on r n fuel g).
