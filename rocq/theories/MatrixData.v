(** * The computational form: model of /repo/src/algorithm/two_phase/matrix_provider/matrix_data.rs *)
From Verif Require Export GeneralForm Provider.

(** matrix_data.rs:62-103 `MatrixData`.  [md_to_bound] is `non_slack_variable_index_to_bound_index`,
    [md_bounds] is `bound_index_to_non_slack_variable_index`.  The group ends are functions below. *)
Record matrix_data := mk_md {
  md_cols : list svec;
  md_b : list Qc;
  md_ranges : list Qc;
  md_counts : counts;
  md_vars : list variable;
  md_to_bound : list (option nat);
  md_bounds : list nat
}.

(** matrix_data.rs:187-196: one step of the loop that numbers the upper bounds *)
Definition number_bound (st : list (option nat) * list nat) (jv : nat * variable) : list (option nat) * list nat :=
  let (to_bound, bounds) := st in
  match v_upper (snd jv) with
  | Some _ => (to_bound ++ [Some (length bounds)], bounds ++ [fst jv])
  | None => (to_bound ++ [None], bounds)
  end.
(** matrix_data.rs:172-248 `new` *)
Definition new_md (cols : list svec) (b ranges : list Qc) (c : counts) (vars : list variable) : matrix_data :=
  let (to_bound, bounds) := fold_left number_bound (number_from 0 vars) ([], []) in
  mk_md cols b ranges c vars to_bound bounds.

(** matrix_data.rs:202-222 `row_group_end` *)
Definition eq_end (d : matrix_data) : nat := n_equal (md_counts d).
Definition range_end (d : matrix_data) : nat := (eq_end d + n_range (md_counts d))%nat.
Definition upper_end (d : matrix_data) : nat := (range_end d + n_less (md_counts d))%nat.
Definition lower_end (d : matrix_data) : nat := (upper_end d + n_greater (md_counts d))%nat.
Definition bound_end (d : matrix_data) : nat := (lower_end d + length (md_bounds d))%nat.
Definition slack_bound_end (d : matrix_data) : nat := (bound_end d + n_range (md_counts d))%nat.
(** matrix_data.rs:224-241 `column_group_end` *)
Definition normal_cend (d : matrix_data) : nat := length (md_vars d).
Definition range_cend (d : matrix_data) : nat := (normal_cend d + n_range (md_counts d))%nat.
Definition upper_cend (d : matrix_data) : nat := (range_cend d + n_less (md_counts d))%nat.
Definition lower_cend (d : matrix_data) : nat := (upper_cend d + n_greater (md_counts d))%nat.
Definition bound_cend (d : matrix_data) : nat := (lower_cend d + length (md_bounds d))%nat.
Definition slack_bound_cend (d : matrix_data) : nat := (bound_cend d + n_range (md_counts d))%nat.

(** matrix_data.rs:118-150 `ColumnType` *)
Inductive column_type := Normal | RangeSlack | UpperSlack | LowerSlack | BoundSlack | SlackBoundSlack.
(** matrix_data.rs:253-273 `column_type` *)
Definition classify (d : matrix_data) (j : nat) : column_type * nat :=
  if Nat.ltb j (normal_cend d) then (Normal, j)
  else if Nat.ltb j (range_cend d) then (RangeSlack, j - normal_cend d)%nat
  else if Nat.ltb j (upper_cend d) then (UpperSlack, j - range_cend d)%nat
  else if Nat.ltb j (lower_cend d) then (LowerSlack, j - upper_cend d)%nat
  else if Nat.ltb j (bound_cend d) then (BoundSlack, j - lower_cend d)%nat
  else (SlackBoundSlack, j - bound_cend d)%nat.

(** matrix_data.rs:356-379 `bound_row_index`, for the direction `Upper` (`Lower` gives `None`) *)
Definition bound_row_index (d : matrix_data) (j : nat) : option nat :=
  match classify d j with
  | (Normal, j) => match nth j (md_to_bound d) None with
                   | Some k => Some (lower_end d + k)%nat
                   | None => None
                   end
  | (RangeSlack, j) => Some (bound_end d + j)%nat
  | _ => None
  end.

(** matrix_data.rs:459-491 `Column`, a column as a list of entries is what its iterator yields
    (matrix_data.rs:504-660) *)
Inductive md_column :=
| MSparse (constraint_values : svec) (slack : option (nat * Qc))
| MSlack (e : nat * Qc)
| MTwoSlack (e1 e2 : nat * Qc).
Definition column_entries (c : md_column) : svec :=
  match c with
  | MSparse vs (Some s) => vs ++ [s]
  | MSparse vs None => vs
  | MSlack e => [e]
  | MTwoSlack e1 e2 => [e1; e2]
  end.
(** matrix_data.rs:291-329 `column`.  An index out of range panics in the code; here it reads an empty
    column.  The solver asks for columns in range only. *)
Definition md_column_at (d : matrix_data) (j : nat) : md_column :=
  match classify d j with
  | (Normal, j) => MSparse (nth j (md_cols d) [])
                     (match bound_row_index d j with Some i => Some (i, 1) | None => None end)
  | (RangeSlack, j) => MTwoSlack ((eq_end d + j)%nat, 1) ((bound_end d + j)%nat, 1)
  | (UpperSlack, j) => MSlack ((range_end d + j)%nat, 1)
  | (LowerSlack, j) => MSlack ((upper_end d + j)%nat, - (1))
  | (BoundSlack, j) => MSlack ((lower_end d + j)%nat, 1)
  | (SlackBoundSlack, j) => MSlack ((bound_end d + j)%nat, 1)
  end.
(** matrix_data.rs:670-692 `into_filtered`.  The subtraction of `usize` panics on underflow in a debug
    build; it is truncated here. *)
Definition into_filtered (c : md_column) (rm : list nat) : md_column :=
  let down (e : nat * Qc) := ((fst e - length rm)%nat, snd e) in
  match c with
  | MSparse vs s => MSparse (sremove vs rm) (option_map down s)
  | MSlack e => MSlack (down e)
  | MTwoSlack e1 e2 => MTwoSlack (down e1) (down e2)
  end.

(** matrix_data.rs:331-339 `cost_value`; `None` counts as zero *)
Definition md_cost (d : matrix_data) (j : nat) : Qc :=
  match classify d j with
  | (Normal, j) => match nth_error (md_vars d) j with Some v => v_cost v | None => 0 end
  | _ => 0
  end.
(** matrix_data.rs:341-353 `right_hand_side`; the `unwrap` of a missing bound reads 0 here *)
Definition upper_of (vars : list variable) (j : nat) : Qc :=
  match nth_error vars j with
  | Some v => match v_upper v with Some u => u | None => 0 end
  | None => 0
  end.
Definition md_rhs (d : matrix_data) : list Qc :=
  md_b d ++ map (upper_of (md_vars d)) (md_bounds d) ++ md_ranges d.
(** matrix_data.rs:381-400 `nr_constraints`, `nr_variable_bounds`, `nr_columns` *)
Definition md_nr_constraints (d : matrix_data) : nat := lower_end d.
Definition md_nr_variable_bounds (d : matrix_data) : nat := (length (md_bounds d) + n_range (md_counts d))%nat.
Definition md_nr_columns (d : matrix_data) : nat := slack_bound_cend d.
(** matrix_data.rs:402-411 `reconstruct_solution`; `nr_normal_variables` (matrix_data.rs:276-278) is the
    number of columns of the constraint matrix *)
Definition reconstruct (d : matrix_data) (z : svec) : svec :=
  sremove z (range (length (md_cols d)) (md_nr_columns d)).
(** matrix_data.rs:419-445 `pivot_element_indices` *)
Definition md_pivots (d : matrix_data) : list (nat * nat) :=
  map (fun j => (range_end d + j, range_cend d + j)%nat) (range 0 (n_less (md_counts d))) ++
  map (fun j => (lower_end d + j, lower_cend d + j)%nat) (range 0 (length (md_bounds d))) ++
  map (fun j => (bound_end d + j, bound_cend d + j)%nat) (range 0 (n_range (md_counts d))).

(** `MatrixData` as a `MatrixProvider` with `PartialInitialBasis` (matrix_data.rs:281-449); the number of
    rows is `nr_constraints + nr_variable_bounds` (matrix_provider/mod.rs:90-98). *)
Definition md_provider (d : matrix_data) : provider :=
  mk_provider (md_nr_constraints d + md_nr_variable_bounds d) (md_nr_columns d)
    (fun j => column_entries (md_column_at d j)) (md_cost d) (md_rhs d) (PartialInit (md_pivots d))
    (fun rm j => column_entries (into_filtered (md_column_at d j) rm)).

(** general_form/mod.rs:262-302 `derive_matrix_data` *)
Definition slice {A} (l : list A) (a b : nat) : res (list A) :=
  if Nat.leb a b && Nat.leb b (length l) then Ok (firstn (b - a) (skipn a l)) else Panic.
Definition range_size (t : rel) : res Qc := match t with Range r => Ok r | _ => Panic end.
Definition derive_matrix_data (g : general) (c : counts) : res matrix_data :=
  let* ts := slice (g_types g) (n_equal c) (n_equal c + n_range c) in
  let* ranges := mapM range_size ts in
  Ok (new_md (g_cols g) (g_b g) ranges c (g_vars g)).
