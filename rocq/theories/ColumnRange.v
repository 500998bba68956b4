(** * Reducing column ranges: model of /repo/examples/column_range.rs

    The matrix is a parameter here; in the example it is written down in the program (lines 43-47).  Values are of
    type `i32` there and integers without bound here. *)
From Verif Require Export Warm Matrix MatrixData.

(** column_range.rs:43-47 `input_matrix` *)
Definition input := list (list (option Z)).
(** `input_matrix[i][j]`, in range *)
Definition cell (a : input) (i j : nat) : option Z := nth j (nth i a []) None.
(** column_range.rs:50 `input_matrix[0].len()` *)
Definition input_columns (a : input) : res nat := let* r := index a 0 in Ok (length r).

(** column_range.rs:53 `(0..m).filter_map(move |i| input_matrix[i][j])` *)
Definition present (a : input) (j : nat) : list Z :=
  flat_map (fun i => match cell a i j with Some v => [v] | None => [] end) (range 0 (length a)).
(** `Iterator::min` and `Iterator::max` *)
Definition iter_min (l : list Z) : option Z := match l with [] => None | x :: t => Some (fold_left Z.min t x) end.
Definition iter_max (l : list Z) : option Z := match l with [] => None | x :: t => Some (fold_left Z.max t x) end.
(** column_range.rs:52-54 `column_extreme`, with its `unwrap` *)
Definition column_extreme (a : input) (n : nat) (f : list Z -> option Z) : res (list Z) :=
  mapM (fun j => ofopt (f (present a j))) (range 0 n).

(** column_range.rs:58-88: the variables for the rows, the minima and the maxima *)
Definition range_variable (cost : Qc) : variable := mk_var false cost (Some 0) None 0 false.
Definition range_variables (m n : nat) : list variable :=
  repeat (range_variable 0) m ++ repeat (range_variable (- (1))) n ++ repeat (range_variable 1) n.

(** column_range.rs:105-107 and 139-141: the pairs [(j, i)] with a value, in the order of the two nested loops *)
Definition cells (a : input) (m n : nat) : list (nat * nat * Z) :=
  flat_map (fun j => flat_map (fun i => match cell a i j with Some v => [(i, j, v)] | None => [] end) (range 0 m)) (range 0 n).

(** column_range.rs:90-102: what the loops build: `row_major_constraints`, `b`, `basis_columns`, `had_a_min` (or
    `had_a_max`), `nr_upper_bounded_constraints` (or `nr_lower_bounded_constraints`) *)
Record building := mk_building {
  bd_rows : list svec;
  bd_b : list Qc;
  bd_basis : list nat;
  bd_had : list bool;
  bd_count : nat
}.
(** column_range.rs:108-131 and 142-154: the body of the two loops.  They differ in the extremes [ext], in the first
    of the variables for them, [first], and in the first slack variable, [slacks]. *)
Definition range_step (ext : list Z) (first slacks : nat) (s : building) (c : nat * nat * Z) : res building :=
  let '(i, j, v) := c in
  let* e := index ext j in
  let* had := index (bd_had s) j in
  let pivot := Z.eqb v e && negb had in
  Ok (mk_building (bd_rows s ++ [[(i, 1); ((first + j)%nat, 1)]]) (bd_b s ++ [zq v])
        (bd_basis s ++ [if pivot then (first + j)%nat else (slacks + bd_count s)%nat])
        (if pivot then upd (bd_had s) j true else bd_had s) (S (bd_count s))).
(** column_range.rs:97-134 and 136-157: the two loops *)
Definition range_rows (a : input) (m n : nat) (lows highs : list Z) : res (building * nat * nat) :=
  let* s1 := foldM (range_step lows m (m + 2 * n)) (cells a m n) (mk_building [] [] [] (repeat false n) 0) in
  let nr_upper := bd_count s1 in
  let* s2 := foldM (range_step highs (m + n) (m + 2 * n + nr_upper)) (cells a m n)
               (mk_building (bd_rows s1) (bd_b s1) (bd_basis s1) (repeat false n) 0) in
  Ok (s2, nr_upper, bd_count s2).

(** column_range.rs:49-176: the matrix provider and the chosen basis.  The loop at 160-165 that makes columns out of
    rows is that of [mx_transpose]. *)
Definition range_problem (a : input) : res (matrix_data * list nat) :=
  let m := length a in
  let* n := input_columns a in
  let* lows := column_extreme a n iter_min in
  let* highs := column_extreme a n iter_max in
  let* built := range_rows a m n lows highs in
  let '(s, nr_upper, nr_lower) := built in
  let* constraints := mx_transpose (bd_rows s) (m + 2 * n) in
  Ok (new_md (mx_data constraints) (bd_b s) [] (mk_counts 0 0 nr_upper nr_lower) (range_variables m n), bd_basis s).

(** column_range.rs:178-203: solving and reading off the shifts of the rows *)
Definition column_range (r : representation) (rl : rule_name) (fuel : nat) (a : input) : res (list Qc) :=
  let* problem := range_problem a in
  let (d, basis) := problem in
  let* result := start_from r rl fuel (md_provider d) basis in
  match result with
  | FiniteOptimum x =>
      let solution := reconstruct d x in
      Ok (map (fun i => match sget solution i with None => 0 | Some v => v end) (range 0 (length a)))
  | _ => Panic
  end.
