(** * Builds with debug assertions: from a general form to a solution

    The functions of GeneralForm.v, MatrixData.v and Pipeline.v as a debug build runs them: every `debug_assert!` is
    evaluated, at the place where it stands, and one that fails is a panic.  [is_consistent] and [removable] are in
    PresolveD.v, the assertions of the solver itself in DebugLu.v, DebugSolve.v and DebugRun.v.

    Left out: assertions that a function of the matrix provider is called with the index of a column that exists
    (matrix_data.rs:254, 292, 332, 361; matrix.rs:346).  In the solver each of these calls follows an assertion of
    the same (tableau/mod.rs, in DebugSolve.v). *)
From Verif Require Export Pipeline DebugRun PresolveD.
Local Open Scope Qc_scope.

(** ** The general form *)
(** linear_algebra/matrix.rs:391-411 `from_major_ordered_tuples` *)
Definition major_ok (data : list svec) (major minor : nat) : bool :=
  Nat.eqb (length data) major && forallb (fun c => is_sorted (keys c)) data &&
  forallb (fun c => all_below minor (keys c)) data && forallb all_nonzero data.
(** mod.rs:554-587 `split_free_variables`; matrix.rs:464-472 `concatenate_major_indices`: its first assertion compares
    the number of rows of the matrix with itself *)
Definition split_free_d (g : general) : res general :=
  let* dup := filterM (fun j => let* v := index (g_vars g) j in Ok (GeneralForm.is_free v)) (range 0 (length (g_cols g))) in
  let* cols := mapM (fun j => let* c := index (g_cols g) j in Ok (snegate c)) dup in
  let* _ := assert (major_ok cols (length dup) (g_rows g)) in
  let* _ := assert (major_ok (g_cols g ++ cols) (length (g_cols g) + length dup) (g_rows g)) in
  foldM split_one dup
    (mk_general (g_objective g) (g_fixed g) (g_rows g) (g_cols g ++ cols) (g_types g) (g_b g)
       (g_vars g) (g_orig g) (g_from g)).
(** mod.rs:506-546 `transform_variables` *)
Definition transform_variables_d (g : general) : res general :=
  let* g1 := split_free_d g in
  let* _ := assert (is_consistent g1) in
  let* g2 := foldM transform_one (range 0 (length (g_vars g1))) g1 in
  let* _ := assert (is_consistent g2) in
  Ok g2.
(** mod.rs:592-620 `make_b_non_negative` *)
Definition make_b_non_negative_d (g : general) : res general :=
  let* g' := make_b_non_negative g in
  let* _ := assert (is_consistent g') in
  Ok g'.
(** mod.rs:651-716 `reorder_constraints_by_type`; vector/dense.rs:95-102 `new` *)
Definition reorder_d (g : general) : res (general * counts) :=
  let* gc := reorder g in
  let* _ := assert (Nat.eqb (length (g_b (fst gc))) (length (g_b g))) in
  let* _ := assert (is_consistent (fst gc)) in
  Ok gc.
(** mod.rs:325-332 `standardize` *)
Definition standardize_d (g : general) : res (general * counts) :=
  let* g1 := transform_variables_d g in
  let* g2 := make_b_non_negative_d g1 in
  reorder_d (make_minimization g2).

(** ** The matrix data *)
(** mod.rs:263-277: the types are in four groups, and there are no others *)
Definition in_group (c : counts) (it : nat * rel) : bool :=
  let (i, t) := it in
  if Nat.ltb i (n_equal c) then match t with Equal => true | _ => false end
  else if Nat.ltb i (n_equal c + n_range c) then match t with Range _ => true | _ => false end
  else if Nat.ltb i (n_equal c + n_range c + n_less c) then match t with Less => true | _ => false end
  else if Nat.ltb i (n_equal c + n_range c + n_less c + n_greater c) then match t with Greater => true | _ => false end
  else false.
(** matrix_data.rs:172-248 `new` *)
Definition new_md_d (rows : nat) (cols : list svec) (b ranges : list Qc) (c : counts) (vars : list variable) : res matrix_data :=
  let* _ := assert (Nat.eqb (length ranges) (n_range c)) in
  let d := new_md cols b ranges c vars in
  let* _ := assert (Nat.leb (length (md_bounds d)) (length vars)) in
  let* _ := assert (Nat.eqb (length (md_to_bound d)) (length vars)) in
  let* _ := assert (Nat.eqb (lower_end d) rows) in
  Ok d.
(** mod.rs:262-302 `derive_matrix_data` *)
Definition derive_matrix_data_d (g : general) (c : counts) : res matrix_data :=
  let* _ := assert (forallb (in_group c) (number_from 0 (g_types g))) in
  let* _ := assert (Nat.eqb (n_equal c + n_range c + n_less c + n_greater c) (g_rows g)) in
  let* ts := slice (g_types g) (n_equal c) (n_equal c + n_range c) in
  let* ranges := mapM range_size ts in
  new_md_d (g_rows g) (g_cols g) (g_b g) ranges c (g_vars g).
(** vector/sparse.rs:149-158 `remove_indices` of a vector of length [len] *)
Definition remove_d (z : svec) (len : nat) (indices : list nat) : res svec :=
  let* _ := assert (is_sorted indices) in
  let* _ := assert (Nat.eqb (set_size indices) (length indices)) in
  let* _ := assert (all_below len indices) in
  let* _ := assert (Nat.ltb (length indices) len) in
  Ok (sremove z indices).
(** matrix_data.rs:402-411 `reconstruct_solution` of a vector of length [len]; tableau/mod.rs:183-186: this is the number of columns *)
Definition reconstruct_d (d : matrix_data) (len : nat) (z : svec) : res svec :=
  let* _ := assert (Nat.eqb len (md_nr_columns d)) in
  remove_d z len (range (length (md_cols d)) (md_nr_columns d)).
(** The columns of the provider when the rows [rm] are left out: filter/generic_wrapper.rs:88-89, 252, 265 and
    matrix_data.rs:670-692.  The last condition is that no subtraction of unsigned numbers goes below zero. *)
Definition filter_ok (d : matrix_data) (rm : list nat) : bool :=
  is_sorted rm && Nat.eqb (set_size rm) (length rm) && all_below (md_nr_constraints d) rm &&
  forallb (fun j => match md_column_at d j with
                    | MSparse _ None => true
                    | MSparse _ (Some e) => Nat.leb (length rm) (fst e)
                    | MSlack e => Nat.leb (length rm) (fst e)
                    | MTwoSlack e1 e2 => Nat.leb (length rm) (fst e1) && Nat.leb (length rm) (fst e2)
                    end) (range 0 (md_nr_columns d)).

(** ** Solutions *)
(** vector/sparse.rs:138-142 `get`, 300-320 `shift_value`, 128-136 `set` *)
Definition get_d (z : svec) (len i : nat) : res (option Qc) :=
  let* _ := assert (Nat.ltb i len) in Ok (sget z i).
Definition shift_value_d (z : svec) (len i : nat) (v : Qc) : res svec :=
  let* _ := assert (Nat.ltb i len) in Ok (shift_value z i v).
Definition sset_d (z : svec) (len i : nat) (v : Qc) : res svec :=
  let* _ := assert (Nat.ltb i len) in
  let* _ := assert (negb (qzero v)) in
  Ok (sset z i v).
(** mod.rs:808-825 `reshift_solution` *)
Definition reshift_one_d (len : nat) (z : svec) (jv : nat * variable) : res svec :=
  let (j, v) := jv in
  let* z1 := shift_value_d z len j (- v_shift v) in
  if v_flipped v then
    let* x := get_d z1 len j in
    match x with
    | Some x => sset_d z1 len j (- x)
    | None => Ok z1
    end
  else Ok z1.
Definition reshift_d (vars : list variable) (len : nat) (z : svec) : res svec :=
  let* _ := assert (Nat.eqb len (length vars)) in
  foldM (reshift_one_d len) (number_from 0 vars) z.
(** mod.rs:889-933 `compute_solution_value_with_bfs`; [n] is the number of variables.  Two of its three assertions
    compare the lengths of vectors that are created with that length. *)
Fixpoint value_with_bfs_d (n len fuel : nat) (orig : list (string * original)) (z : svec) (o : nat) : res Qc :=
  match fuel with
  | 0%nat => Fuel
  | S fuel' =>
      let* _ := assert (Nat.ltb o (length orig)) in
      let* _ := assert (Nat.eqb len n) in
      let* entry := index orig o in
      match snd entry with
      | Active j => let* x := get_d z len j in Ok (match x with Some v => v | None => 0 end)
      | ActiveFree jp jn =>
          let* p := get_d z len jp in
          let* q := get_d z len jn in
          Ok (match p, q with
              | None, None => 0
              | Some p, None => p
              | None, Some n => - n
              | Some p, Some n => p - n
              end)
      | Removed (Solved v) => Ok v
      | Removed (FunctionOf constant coefficients) =>
          let* parts := mapM (fun '(j, c) => let* v := value_with_bfs_d n len fuel' orig z j in Ok (v * c)) coefficients in
          Ok (- fold_left Qcplus parts 0 + constant)
      end
  end.
(** mod.rs:840-870 `compute_full_solution_with_reduced_solution` of a vector of length [len] *)
Definition full_solution_d (fuel : nat) (g : general) (len : nat) (z : svec) : res solution :=
  let* _ := assert (Nat.eqb len (length (g_vars g))) in
  let* parts := mapM (fun '(j, x) => let* v := index (g_vars g) j in Ok (x * v_cost v)) z in
  let cost := fold_left Qcplus parts 0 + g_fixed g in
  let* z' := reshift_d (g_vars g) len z in
  let* values := mapM (value_with_bfs_d (length (g_vars g)) len fuel (g_orig g) z') (range 0 (length (g_orig g))) in
  Ok (mk_solution cost (combine (map fst (g_orig g)) values)).

(** ** All of it *)
Definition solve_general_debug (r : representation) (n : rule_name) (fuel : nat) (g : general) : res answer :=
  let* gc := standardize_d g in
  let* d := derive_matrix_data_d (fst gc) (snd gc) in
  let* result := run_debug r n fuel (md_provider d) in
  match result with
  | FiniteOptimum x =>
      let* z := reconstruct_d d (md_nr_columns d) x in
      let* s := full_solution_d fuel (fst gc) (md_nr_columns d - length (range (length (md_cols d)) (md_nr_columns d))) z in
      Ok (Solved_to s)
  | Infeasible => Ok NoSolution
  | Unbounded => Ok NoBound
  end.
(** mod.rs:211-237 `new` *)
Definition new_general_d (o : direction) (rows : nat) (cols : list svec) (types : list rel)
    (b : list Qc) (vars : list variable) (names : list string) (fixed : Qc) : res general :=
  let g := new_general o rows cols types b vars names fixed in
  let* _ := assert (is_consistent g) in
  Ok g.
(** tests/netlib/mod.rs:47-71: presolve, and solve what remains *)
Definition presolve_and_solve_debug (on : site -> bool) (r : representation) (n : rule_name) (fuel : nat) (g : general) : res answer :=
  match presolve_d on fuel g with
  | Go g' => solve_general_debug r n fuel g'
  | Stop VInfeasible => Ok NoSolution
  | Stop VUnbounded => Ok NoBound
  | Stop (VOptimum s) => Ok (Solved_to s)
  | PPanic => Panic
  | PFuel => Fuel
  end.
