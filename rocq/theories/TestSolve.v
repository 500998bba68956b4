(** * The repository's unit tests of the tableau, the two phases, the general form and the matrix data, run on the model

    These are tests of the model, not proofs: they compare what the model computes with what the repository's authors
    expect of the code.  The test functions are cited beside the examples. *)
From Verif Require Import Lu InvRows Examples ExParse ExPresolve TestLu Filter Matrix ExGeneral ExFile Presolve Pipeline.
From Verif Require Import MpsParse Scale ExScale.
From Coq Require Import String List.
Local Open Scope string_scope.
Local Open Scope list_scope.
Local Notation "a ^^ b" := (String.append a b) (at level 60, right associativity).
Local Open Scope nat_scope.

Definition z (v : Z) : Qc := q v 1.
Definition dense (l : list Z) : list Qc := map z l.
Definition test_svec (l : list Z) : svec := sfrom (dense l).
(** matrix.rs:136-165 `from_test_data` *)
Definition test_columns (rows : list (list Z)) (n : nat) : list svec :=
  match mx_columns_dense (map dense rows) n with Ok m => mx_data m | _ => [] end.
Definition qvar (cost : Qc) (lower upper : option Qc) : variable := mk_var false cost lower upper (z 0) false.

Definition carry_eqb (a b : carry BIR) : bool :=
  qeqb (c_mobj a) (c_mobj b) && list_eqb qeqb (c_mpi a) (c_mpi b) && list_eqb qeqb (c_b a) (c_b b) && list_eqb Nat.eqb (c_basis a) (c_basis b) &&
  list_eqb svec_eqb (c_bi a) (c_bi b).
(** the set of basis columns is a `HashSet` *)
Definition same_set (a b : list nat) : bool := list_eqb Nat.eqb (sort_by (fun x => x) a) (sort_by (fun x => x) b).
Definition tableau_eqb (a b : tableau BIR) : bool := carry_eqb (t_im a) (t_im b) && same_set (t_cols a) (t_cols b).
Definition opt_result_eqb (a b : opt_result) : bool :=
  match a, b with FiniteOptimum x, FiniteOptimum y => svec_eqb x y | Infeasible, Infeasible => true | Unbounded, Unbounded => true | _, _ => false end.
Definition rows_tableau (mobj : Qc) (mpi b : list Qc) (basis : list nat) (rows : list svec) : tableau BIR :=
  mk_tab (mk_carry mobj mpi b basis (rows : bi BIR)) basis.

(** ** problem_2: /repo/src/tests/problem_2.rs *)
(** 69-115 *)
Definition problem_2 : matrix_data :=
  new_md (test_columns [[3; 2; 1; 0; 0]; [5; 1; 1; 1; 0]; [2; 5; 1; 0; 1]]%Z 5) (dense [1; 3; 4]%Z) [] (mk_counts 3 0 0 0)
    (repeat (qvar (z 1) (Some (z 0)) None) 5).
Definition provider_2 : provider := md_provider problem_2.
(** 117-138 *)
Definition artificial_2 : tableau BIR :=
  rows_tableau (z (-8)) (dense [-1; -1; -1]%Z) (dense [1; 3; 4]%Z) [0; 1; 2] (map sbasis [0; 1; 2]).
Definition kind_artificial_2 : kind := partially provider_2 [0; 1; 2].
Definition kind_2 : kind := non_artificial provider_2.
(** 140-174 *)
Definition tableau_2 : tableau BIR :=
  rows_tableau (q (-9) 2) [q 5 2; z (-1); z (-1)] [q 1 2; q 5 2; q 3 2] [1; 3; 4]
    [[(0, q 1 2)]; [(0, q (-1) 2); (1, z 1)]; [(0, q (-5) 2); (2, z 1)]].
Definition first : Rule BIR := first_profitable BIR.

(** problem_2.rs:28-67 `conversion_pipeline` *)
Definition started (d : matrix_data) : res (tableau BIR * list nat) := new_partially BIR (md_provider d) (md_pivots d).
Definition with_real_columns (d : matrix_data) : res (tableau BIR) :=
  let* ta := started d in
  let* f := phase_one BIR first 100 (partially (md_provider d) (snd ta)) (fst ta) in
  match f with
  | PhaseOneFeasible _ RankFull t => tab_from_artificial (t_im t) (length (snd ta)) (t_cols t) (md_provider d)
  | _ => Panic
  end.
Definition finished (d : matrix_data) : res opt_result :=
  let* t := with_real_columns d in phase_two BIR first 100 (non_artificial (md_provider d)) t.
Example problem_2_as_expected :
  (res_is tableau_eqb (let* ta := started problem_2 in Ok (fst ta)) artificial_2 &&
   res_is (list_eqb Nat.eqb) (let* ta := started problem_2 in Ok (snd ta)) [0; 1; 2] &&
   res_is tableau_eqb (with_real_columns problem_2) tableau_2 &&
   res_is opt_result_eqb (finished problem_2) (FiniteOptimum [(1, q 1 2); (3, q 5 2); (4, q 3 2)]))%bool = true.
Proof. vm_compute. reflexivity. Qed.

(** ** tableau/mod.rs *)
(** 461-489 *)
Definition tableau_ : tableau BIR :=
  rows_tableau (z (-6)) (dense [1; -1; -1]%Z) (dense [1; 2; 3]%Z) [2; 3; 4] [test_svec [1]%Z; test_svec [-1; 1]%Z; test_svec [-1; 0; 1]%Z].
(** 491-500 `cost` *)
Example tableau_cost_as_expected : (qeqb (objective_value artificial_2) (z 8) && qeqb (objective_value tableau_) (z 6))%bool = true.
Proof. vm_compute. reflexivity. Qed.
(** 502-518 `relative_cost` *)
Example tableau_relative_cost_as_expected :
  (qeqb (relative_cost kind_artificial_2 artificial_2 0) (z 0) && qeqb (relative_cost kind_artificial_2 artificial_2 3) (z (-10)) &&
   qeqb (relative_cost kind_2 tableau_ 0) (z (-3)) && qeqb (relative_cost kind_2 tableau_ 1) (z (-3)) && qeqb (relative_cost kind_2 tableau_ 2) (z 0))%bool = true.
Proof. vm_compute. reflexivity. Qed.
(** 520-540 `generate_column` *)
Example tableau_generate_column_as_expected :
  (res_is svec_eqb (generate_column kind_artificial_2 artificial_2 3) (test_svec [3; 5; 2]%Z) &&
   res_is svec_eqb (generate_column kind_2 tableau_ 0) (test_svec [3; 2; -1]%Z))%bool = true.
Proof. vm_compute. reflexivity. Qed.
(** 542-566 `bring_into_basis` *)
Definition brought (k : kind) (t : tableau BIR) (j : nat) : res (tableau BIR) :=
  let* cc := generate_column k t j in
  let* p := select_row t cc in
  let* p := ofopt p in
  let* ti := bring_into_basis k t j p cc (relative_cost k t j) in
  Ok (fst ti).
Definition holds {A} (f : A -> bool) (r : res A) : bool := match r with Ok x => f x | _ => false end.
Example tableau_bring_into_basis_as_expected :
  (holds (fun t => in_basis t 3 && negb (in_basis t 0) && qeqb (objective_value t) (q 14 3)) (brought kind_artificial_2 artificial_2 3) &&
   holds (fun t => in_basis t 1 && qeqb (objective_value t) (q 9 2)) (brought kind_2 tableau_ 1))%bool = true.
Proof. vm_compute. reflexivity. Qed.
(** 570-607 `create_tableau` *)
Definition bfs_tableau : tableau BIR :=
  rows_tableau (z 0) (dense [1; 1; 1]%Z) (dense [1; 2; 3]%Z) [5; 6; 7] [test_svec [1]%Z; test_svec [-1; 1]%Z; test_svec [-1; 0; 1]%Z].
Definition chosen (k : kind) (t : tableau BIR) : option nat := option_map fst (find_profitable BIR k t (range (k_art k) (k_cols k))).
Example create_tableau_as_expected : chosen kind_2 bfs_tableau = None.
Proof. vm_compute. reflexivity. Qed.

(** ** strategy/pivot_rule.rs:312-350 *)
Example find_profitable_column_as_expected :
  (opt_eqb Nat.eqb (chosen kind_artificial_2 artificial_2) (Some 3) && opt_eqb Nat.eqb (chosen kind_2 tableau_2) None)%bool = true.
Proof. vm_compute. reflexivity. Qed.
Example find_pivot_row_as_expected :
  (res_is (opt_eqb Nat.eqb) (select_row artificial_2 (test_svec [3; 5; 2]%Z)) (Some 0) && res_is (opt_eqb Nat.eqb) (select_row artificial_2 (test_svec [2; 1; 5]%Z)) (Some 0) &&
   res_is (opt_eqb Nat.eqb) (select_row tableau_2 (test_svec [3; 2; -1]%Z)) (Some 0) && res_is (opt_eqb Nat.eqb) (select_row tableau_2 (test_svec [2; -1; 3]%Z)) (Some 0))%bool = true.
Proof. vm_compute. reflexivity. Qed.

(** ** phase_one.rs:293-305 `finding_bfs` *)
Example finding_bfs_as_expected : holds (fun _ => true) (with_real_columns problem_2) = true.
Proof. vm_compute. reflexivity. Qed.

(** ** two_phase/test.rs *)
(** 18-28 `simplex` *)
Example simplex_as_expected :
  holds (fun r => match r with LoopOptimal _ t => qeqb (objective_value t) (q 9 2) | _ => false end) (simplex_loop BIR first 100 kind_2 tableau_2 tt) = true.
Proof. vm_compute. reflexivity. Qed.
(** 30-44 `solve_matrix` *)
Example solve_matrix_as_expected :
  res_is opt_result_eqb (solve_relaxation LU 100 provider_2) (FiniteOptimum [(1, q 1 2); (3, q 5 2); (4, q 3 2)]) = true.
Proof. vm_compute. reflexivity. Qed.
(** 46-94 `solve_relaxation_1` *)
Definition relaxation_1 : matrix_data :=
  new_md (test_columns [[1; 0]; [1; 1]]%Z 2) [q 3 2; q 5 2] [] (mk_counts 0 0 2 0) [qvar (z (-2)) (Some (z 0)) None; qvar (z (-1)) (Some (z 0)) None].
Example solve_relaxation_1_as_expected :
  res_is opt_result_eqb (solve_relaxation LU 100 (md_provider relaxation_1)) (FiniteOptimum [(0, q 3 2); (1, z 1)]) = true.
Proof. vm_compute. reflexivity. Qed.
(** 93-215 `redundant_row`, `empty_row_at_eq`, `empty_row_at_ineq` *)
Definition two_vars : list variable := [qvar (z (-2)) (Some (z 0)) (Some (q 3 4)); qvar (z (-1)) (Some (z 0)) None].
Example redundant_rows_as_expected :
  (res_is opt_result_eqb (solve_relaxation BIR 100 (md_provider (new_md (test_columns [[1; 1]; [1; 1]; [1; 1]]%Z 2) (dense [1; 1; 1]%Z) [] (mk_counts 3 0 0 0) two_vars)))
     (FiniteOptimum [(0, q 3 4); (1, q 1 4)]) &&
   res_is opt_result_eqb (solve_relaxation BIR 100 (md_provider (new_md (test_columns [[1; 1]; [0; 0]]%Z 2) (dense [1; 0]%Z) [] (mk_counts 2 0 0 0) two_vars)))
     (FiniteOptimum [(0, q 3 4); (1, q 1 4)]) &&
   res_is opt_result_eqb (solve_relaxation BIR 100 (md_provider (new_md (test_columns [[1; 1]; [0; 0]]%Z 2) (dense [1; 1]%Z) [] (mk_counts 1 0 1 0) two_vars)))
     (FiniteOptimum [(0, q 3 4); (1, q 1 4); (2, z 1)]))%bool = true.
Proof. vm_compute. reflexivity. Qed.

(** ** problem_1: /repo/src/tests/problem_1.rs *)
(** 104-127 *)
Definition lf : string := String newline EmptyString.
Definition problem_1_text : string :=
  "NAME          TESTPROB" ^^ lf ^^ "ROWS" ^^ lf ^^ " N  COST" ^^ lf ^^ " L  LIM1" ^^ lf ^^ " G  LIM2" ^^ lf ^^ " E  MYEQN" ^^ lf ^^ "COLUMNS" ^^ lf ^^
  "    XONE      COST                 1   LIM1                 1" ^^ lf ^^ "    XONE      LIM2                 1" ^^ lf ^^
  "    MARKER0   'MARKER'      'INTORG'" ^^ lf ^^ "    YTWO      COST                 4   LIM1                 1" ^^ lf ^^
  "    YTWO      MYEQN               -1" ^^ lf ^^ "    MARKER0   'MARKER'      'INTEND'" ^^ lf ^^
  "    ZTHREE    COST                 9   LIM2                 1" ^^ lf ^^ "    ZTHREE    MYEQN                1" ^^ lf ^^ "RHS" ^^ lf ^^
  "    RHS1      LIM1                 5   LIM2                10" ^^ lf ^^ "    RHS1      MYEQN                7" ^^ lf ^^ "BOUNDS" ^^ lf ^^
  " UP BND1      XONE                 4" ^^ lf ^^ " LO BND1      YTWO                -1" ^^ lf ^^ " UP BND1      YTWO                 1" ^^ lf ^^ "ENDATA".
(** 129-189 *)
Definition mps_1 : mps :=
  mk_mps "TESTPROB" Minimize "COST" [(0, z 1); (1, z 4); (2, z 9)] [mk_mrow "LIM1" KLess; mk_mrow "LIM2" KGreater; mk_mrow "MYEQN" KEqual]
    [mk_mcolumn "XONE" false [(0, z 1); (1, z 1)]; mk_mcolumn "YTWO" true [(0, z 1); (2, z (-1))]; mk_mcolumn "ZTHREE" false [(1, z 1); (2, z 1)]]
    [mk_group "RHS1" [(0, z 5); (1, z 10); (2, z 7)]] [] [mk_group "BND1" [(0, UpperContinuous (z 4)); (1, LowerContinuous (z (-1))); (1, UpperContinuous (z 1))]].
Definition names_1 : list string := ["XONE"; "YTWO"; "ZTHREE"].
(** 191-243 *)
Definition general_1 : general :=
  new_general Minimize 3 (test_columns [[1; 1; 0]; [1; 0; 1]; [0; -1; 1]]%Z 3) [Less; Greater; Equal] (dense [5; 10; 7]%Z)
    [qvar (z 1) (Some (z 0)) (Some (z 4)); mk_var true (z 4) (Some (z (-1))) (Some (z 1)) (z 0) false; qvar (z 9) (Some (z 0)) None] names_1 (z 0).
(** 245-294, 296-354 *)
Definition vars_1 : list variable := [qvar (z 1) (Some (z 0)) (Some (z 4)); mk_var true (z 4) (Some (z 0)) (Some (z 2)) (z 1) false; qvar (z 9) (Some (z 0)) None].
Definition standardized_1 : general :=
  new_general Minimize 2 (test_columns [[0; -1; 1]; [1; 0; 1]]%Z 3) [Equal; Greater] (dense [6; 10]%Z) vars_1 names_1 (z (-4)).
Definition problem_1 : matrix_data :=
  new_md (test_columns [[0; -1; 1]; [1; 0; 1]]%Z 3) (dense [6; 10]%Z) [] (mk_counts 1 0 0 1) vars_1.
(** 356-383, 385-422 *)
Definition artificial_1 : tableau BIR :=
  rows_tableau (z (-16)) (dense [-1; -1; 0; 0]%Z) (dense [6; 10; 4; 2]%Z) [0; 1; 6; 7] (map sbasis [0; 1; 2; 3]).
Definition tableau_1 : tableau BIR :=
  rows_tableau (z (-58)) (dense [4; -13; 12; 0]%Z) (dense [6; 0; 4; 2]%Z) [2; 1; 0; 5]
    [test_svec [0; 1; -1; 0]%Z; test_svec [-1; 1; -1; 0]%Z; test_svec [0; 0; 1; 0]%Z; test_svec [1; -1; 1; 1]%Z].

Definition row_eqb (a b : mrow) : bool :=
  String.eqb (row_name a) (row_name b) && match row_kind a, row_kind b with KLess, KLess => true | KEqual, KEqual => true | KGreater, KGreater => true | _, _ => false end.
Definition mcolumn_eqb (a b : mcolumn) : bool := String.eqb (col_name a) (col_name b) && Bool.eqb (col_integer a) (col_integer b) && svec_eqb (col_values a) (col_values b).
Definition group_eqb {A} (f : A -> A -> bool) (a b : group A) : bool :=
  String.eqb (grp_name a) (grp_name b) && list_eqb (pair_eqb Nat.eqb f) (grp_values a) (grp_values b).
Definition bound_type_eqb (a b : bound_type) : bool :=
  match a, b with
  | LowerContinuous x, LowerContinuous y | UpperContinuous x, UpperContinuous y => qeqb x y
  | _, _ => false
  end.
Definition direction_eqb (a b : direction) : bool := match a, b with Minimize, Minimize => true | Maximize, Maximize => true | _, _ => false end.
Definition mps_eqb (a b : mps) : bool :=
  match a, b with
  | mk_mps n1 o1 c1 v1 r1 k1 h1 g1 b1, mk_mps n2 o2 c2 v2 r2 k2 h2 g2 b2 =>
      String.eqb n1 n2 && direction_eqb o1 o2 && String.eqb c1 c2 && svec_eqb v1 v2 && list_eqb row_eqb r1 r2 && list_eqb mcolumn_eqb k1 k2 &&
      list_eqb (group_eqb qeqb) h1 h2 && list_eqb (group_eqb qeqb) g1 g2 && list_eqb (group_eqb bound_type_eqb) b1 b2
  end.
Definition out_is {A} (f : A -> A -> bool) (r : out A) (x : A) : bool := match r with Got y => f y x | _ => false end.
Definition md_eqb (a b : matrix_data) : bool :=
  list_eqb svec_eqb (md_cols a) (md_cols b) && list_eqb qeqb (md_b a) (md_b b) && list_eqb qeqb (md_ranges a) (md_ranges b) &&
  Nat.eqb (n_equal (md_counts a)) (n_equal (md_counts b)) && Nat.eqb (n_range (md_counts a)) (n_range (md_counts b)) &&
  Nat.eqb (n_less (md_counts a)) (n_less (md_counts b)) && Nat.eqb (n_greater (md_counts a)) (n_greater (md_counts b)) &&
  list_eqb var_eqb (md_vars a) (md_vars b) && list_eqb (opt_eqb Nat.eqb) (md_to_bound a) (md_to_bound b) && list_eqb Nat.eqb (md_bounds a) (md_bounds b).
(** 35-108 `conversion_pipeline` *)
Definition presolved_1 : general := match presolve 100 general_1 with Go g => g | _ => general_1 end.
Definition solved_1 : res solution :=
  let* r := finished problem_1 in
  match r with FiniteOptimum x => full_solution 10 standardized_1 (reconstruct problem_1 x) | _ => Panic end.
Example problem_1_as_expected :
  (out_is mps_eqb (parse_free Checked problem_1_text) mps_1 &&
   out_is general_eqb (to_general mps_1) general_1 &&
   goes_to (presolve 100 general_1) presolved_1 &&
   res_is general_eqb (let* gc := standardize presolved_1 in Ok (fst gc)) standardized_1 &&
   res_is md_eqb (let* gc := standardize presolved_1 in derive_matrix_data (fst gc) (snd gc)) problem_1 &&
   res_is tableau_eqb (let* ta := started problem_1 in Ok (fst ta)) artificial_1 && res_is (list_eqb Nat.eqb) (let* ta := started problem_1 in Ok (snd ta)) [0; 1] &&
   res_is tableau_eqb (with_real_columns problem_1) tableau_1 &&
   res_is opt_result_eqb (finished problem_1) (FiniteOptimum [(0, z 4); (2, z 6); (5, z 2)]) &&
   holds (fun s => qeqb (s_objective s) (z 54)) solved_1)%bool = true.
Proof. vm_compute. reflexivity. Qed.

(** ** matrix_data.rs:756-823 `from_general_form` *)
Definition column_eqb (a b : md_column) : bool :=
  let e := pair_eqb Nat.eqb qeqb in
  match a, b with
  | MSparse v s, MSparse w t => svec_eqb v w && opt_eqb e s t
  | MSlack x, MSlack y => e x y
  | MTwoSlack x1 x2, MTwoSlack y1 y2 => e x1 y1 && e x2 y2
  | _, _ => false
  end.
Example from_general_form_as_expected :
  (Nat.eqb (length (md_cols problem_1)) 3 &&
   column_eqb (md_column_at problem_1 0) (MSparse [(1, z 1)] (Some (2, z 1))) && column_eqb (md_column_at problem_1 2) (MSparse [(0, z 1); (1, z 1)] None) &&
   column_eqb (md_column_at problem_1 3) (MSlack (1, z (-1))) && column_eqb (md_column_at problem_1 4) (MSlack (2, z 1)) && column_eqb (md_column_at problem_1 5) (MSlack (3, z 1)) &&
   qeqb (md_cost problem_1 0) (z 1) && qeqb (md_cost problem_1 3) (z 0) && qeqb (md_cost problem_1 4) (z 0) && qeqb (md_cost problem_1 5) (z 0) &&
   list_eqb qeqb (md_rhs problem_1) (dense [6; 10; 4; 2]%Z) &&
   list_eqb (opt_eqb Nat.eqb) (map (bound_row_index problem_1) [0; 2; 3; 4; 5]) [Some 2; None; None; None; None] &&
   Nat.eqb (md_nr_constraints problem_1) 2 && Nat.eqb (md_nr_variable_bounds problem_1) 2 && Nat.eqb (p_rows (md_provider problem_1)) 4 && Nat.eqb (md_nr_columns problem_1) 6)%bool = true.
Proof. vm_compute. reflexivity. Qed.

(** ** general_form/mod.rs *)
(** 1131-1227 `shift_variables` *)
Example shift_variables_as_expected :
  res_is general_eqb
    (transform_variables (new_general Minimize 2 (test_columns [[1; 0]; [2; 1]]%Z 2) [Greater; Less] (dense [2; 8]%Z) [qvar (z 1) None None; qvar (z 3) (Some (q 5 2)) None] ["XONE"; "XTWO"] (z 1)))
    (mk_general Minimize (q 17 2) 2 (test_columns [[1; 0; -1]; [2; 1; -2]]%Z 3) [Greater; Less] [z 2; q 11 2]
       [qvar (z 1) (Some (z 0)) None; mk_var false (z 3) (Some (z 0)) None (q (-5) 2) false; qvar (z (-1)) (Some (z 0)) None]
       [("XONE", ActiveFree 0 2); ("XTWO", Active 1)] [0; 1; 0]) = true.
Proof. vm_compute. reflexivity. Qed.
(** 1229-1281 `make_b_non_negative` *)
Example make_b_non_negative_as_expected :
  res_is general_eqb (make_b_non_negative (new_general Minimize 1 [[(0, z 2)]] [Equal] [z (-1)] [qvar (z 1) None None] ["XONE"] (z 0)))
    (new_general Minimize 1 [[(0, z (-2))]] [Equal] [z 1] [qvar (z 1) None None] ["XONE"] (z 0)) = true.
Proof. vm_compute. reflexivity. Qed.

(** ** filter/generic_wrapper.rs:355-369 `get_underlying_index` *)
Definition underlying_ok (deleted : list nat) (size : nat) : bool :=
  let left := filter (fun i => negb (memb i deleted)) (range 0 size) in
  forallb (fun '(i, o) => res_is Nat.eqb (underlying_index deleted i) o) (combine (range 0 (length left)) left).
Example get_underlying_index_as_expected : (underlying_ok [2; 5; 7; 9; 12; 15; 16; 19; 20; 21] 25 && underlying_ok [2] 5 && underlying_ok [2; 3] 6)%bool = true.
Proof. vm_compute. reflexivity. Qed.

(** ** matrix.rs:559-827 *)
Definition test_rows : list (list Z) := [[1; 2; 3; 4]; [5; 6; 7; 8]; [9; 10; 11; 12]]%Z.
Definition test_matrix_of (rows : list (list Z)) (n : nat) : res matrix := mx_columns_dense (map dense rows) n.
Definition matrix_eqb (a b : matrix) : bool := list_eqb svec_eqb (mx_data a) (mx_data b) && Nat.eqb (mx_major a) (mx_major b) && Nat.eqb (mx_minor a) (mx_minor b).
Definition matrices_agree (a b : res matrix) : bool := match b with Ok b => res_is matrix_eqb a b | _ => false end.
Definition without_rows (rm : list nat) : res matrix := let* m := test_matrix_of test_rows 4 in mx_remove_minor m rm.
Definition without_columns (rm : list nat) : res matrix := let* m := test_matrix_of test_rows 4 in mx_remove_major m rm.
Example matrix_as_expected :
  (forallb (fun i => matrices_agree (without_rows [i]) (test_matrix_of (remove_at test_rows i) 4)) [0; 1; 2] &&
   matrices_agree (without_rows [0; 1]) (test_matrix_of [[9; 10; 11; 12]]%Z 4) &&
   matrices_agree (without_columns [1]) (test_matrix_of [[1; 3; 4]; [5; 7; 8]; [9; 11; 12]]%Z 3) &&
   matrices_agree (without_columns [0]) (test_matrix_of [[2; 3; 4]; [6; 7; 8]; [10; 11; 12]]%Z 3) &&
   matrices_agree (without_columns [3]) (test_matrix_of [[1; 2; 3]; [5; 6; 7]; [9; 10; 11]]%Z 3) &&
   matrices_agree (without_columns [1; 2]) (test_matrix_of [[1; 4]; [5; 8]; [9; 12]]%Z 2) &&
   matrices_agree (let* m := test_matrix_of test_rows 4 in Ok (mx_change_row_signs [1] m)) (test_matrix_of [[1; 2; 3; 4]; [-5; -6; -7; -8]; [9; 10; 11; 12]]%Z 4) &&
   matrices_agree (Ok (mx_identity 1)) (test_matrix_of [[1]]%Z 1) && matrices_agree (Ok (mx_identity 2)) (test_matrix_of [[1; 0]; [0; 1]]%Z 2) &&
   holds (fun m => Nat.eqb (mx_major m) 7 && Nat.eqb (mx_minor m) 3)
     (let* a := test_matrix_of test_rows 4 in let* b := test_matrix_of [[1; 3; 4]; [5; 7; 8]; [9; 11; 12]]%Z 3 in Ok (mx_concat a b)))%bool = true.
Proof. vm_compute. reflexivity. Qed.

(** ** vector/mod.rs:198-400, vector/sparse.rs:405-429 *)
Example vectors_as_expected :
  (list_eqb qeqb (remove_indices (dense [0; 1; 2]%Z) [1]) (dense [0; 2]%Z) && list_eqb qeqb (remove_indices (dense [3; 0; 0]%Z) [0]) (dense [0; 0]%Z) &&
   list_eqb qeqb (remove_indices (dense [0; 0; 2; 3; 0; 5; 0; 0; 0; 9]%Z) [3; 4; 6]) (dense [0; 0; 2; 5; 0; 0; 9]%Z) &&
   opt_eqb qeqb (sget (test_svec [0; 5; 6]%Z) 0) None && opt_eqb qeqb (sget (test_svec [0; 5; 6]%Z) 1) (Some (z 5)) &&
   opt_eqb qeqb (sget (sset (test_svec [0; 5; 6]%Z) 2 (z 6)) 2) (Some (z 6)) && opt_eqb qeqb (sget (sset (test_svec [0; 5; 6]%Z) 1 (z 3)) 1) (Some (z 3)) &&
   opt_eqb qeqb (sget (sset (sset (test_svec [0; 5; 6]%Z) 1 (z 3)) 0 (z 3)) 1) (Some (z 3)) &&
   forallb (fun '(a, b, r) => qeqb (sdot (test_svec a) (zs b)) (z r))
     [([0; 5; 6]%Z, [(1, 5%Z); (2, 6%Z)], 61%Z); ([3]%Z, [(0, 5%Z)], 15%Z); ([0]%Z, [(0, 1%Z)], 0%Z); ([0; 2]%Z, [(1, 3%Z)], 6%Z); ([2; 0]%Z, [(1, 3%Z)], 0%Z); ([0; 2]%Z, [(0, 3%Z)], 0%Z);
      ([0; 0; 0]%Z, [(1, 3%Z); (2, 7%Z)], 0%Z); ([0; 2; 0]%Z, [(0, 5%Z); (1, 7%Z)], 14%Z); ([0; 2; 0]%Z, [(0, 5%Z); (2, 7%Z)], 0%Z);
      ([1; 0; 0; 1; 0; 0; 0; 0; 0; 0; 0; 0; 1; 1; 0; 0]%Z, [(0, (-1)%Z); (1, 1%Z); (2, 1%Z); (12, 1%Z)], 0%Z)] &&
   forallb (fun '(a, b, r) => qeqb (sdot (zs a) (zs b)) (z r)) [([(0, 1%Z)], [], 0%Z); ([(0, 1%Z)], [(0, 1%Z)], 1%Z); ([(0, 1%Z)], [(2, 1%Z)], 0%Z)] &&
   forallb (fun '(a, b, r) => svec_eqb (add_mult (z 4) (test_svec a) (test_svec b)) (test_svec r))
     [([3], [5], [23]); ([0], [0], [0]); ([0; 3], [5; 0], [20; 3])]%Z &&
   forallb (fun '(a, b, r) => svec_eqb (add_mult (z (-4)) (test_svec a) (test_svec b)) (test_svec r)) [([12], [3], [0]); ([12; 0; 0], [0; 0; 3], [12; 0; -12])]%Z &&
   forallb (fun '(a, n, rm, r) => let v := sp_remove (mk_sparse (zs a) n) rm in svec_eqb (sp_data v) (zs r) && Nat.eqb (sp_len v) (n - length rm))%bool
     [([(0, 3%Z)], 3, [1], [(0, 3%Z)]); ([(0, 3%Z)], 3, [0], []); ([(2, 2%Z); (3, 3%Z); (5, 5%Z); (10, 10%Z)], 11, [3; 4; 6], [(2, 2%Z); (3, 5%Z); (7, 10%Z)])])%bool = true.
Proof. vm_compute. reflexivity. Qed.

(** ** io/mps *)
(** parse/mod.rs:842-880: the text, and `test_into_lines` without the line numbers, which are not modelled *)
Definition test_text : string :=
  lf ^^ "* Start of the file" ^^ lf ^^ "NAME          TESTPROB" ^^ lf ^^ lf ^^ "ROWS" ^^ lf ^^ "* This is the cost row" ^^ lf ^^ " N  COST" ^^ lf ^^ " L  LIM1" ^^ lf ^^ " G  LIM2" ^^ lf ^^ " E  MYEQN" ^^ lf ^^
  "COLUMNS" ^^ lf ^^ "    XONE      COST                 1   LIM1                 1" ^^ lf ^^ "    XONE      LIM2                 1" ^^ lf ^^ "ENDATA".
Example into_lines_as_expected :
  (list_eqb String.eqb (firstn 3 (into_lines test_text)) ["NAME          TESTPROB"; "ROWS"; " N  COST"] && String.eqb (List.last (into_lines test_text) "") "ENDATA")%bool = true.
Proof. vm_compute. reflexivity. Qed.
(** 882-895 `test_parse_program_name_free`, `test_parse_program_name_fixed` *)
Definition name_read (R : reader) : out string := let~ r := parse_program_name R (into_lines test_text) in Got (fst r).
Example parse_program_name_as_expected : (out_is String.eqb (name_read free) "TESTPROB" && out_is String.eqb (name_read fixed) "TESTPROB")%bool = true.
Proof. vm_compute. reflexivity. Qed.
(** 897-926 `test_parse_row_section_free`, `test_parse_row_section_fixed` *)
Definition rows_read (R : reader) : out (option string * list mrow * list string) := parse_row_section R (skipn 2 (into_lines test_text)) None [].
Definition rows_as_expected (R : reader) : bool :=
  match rows_read R with
  | Got (cost, rows, next :: _) =>
      opt_eqb String.eqb cost (Some "COST") && list_eqb row_eqb rows [mk_mrow "LIM1" KLess; mk_mrow "LIM2" KGreater; mk_mrow "MYEQN" KEqual] && prefix "    XONE" next
  | _ => false
  end.
Example parse_row_section_as_expected : (rows_as_expected free && rows_as_expected fixed)%bool = true.
Proof. vm_compute. reflexivity. Qed.
(** 928-961 `test_check_row_section_consistency` *)
Definition refused {A} (r : out A) : bool := match r with Rejected _ => true | _ => false end.
Example check_row_section_consistency_as_expected :
  (refused (check_row_section_consistency None []) &&
   refused (check_row_section_consistency (Some "a") [mk_mrow "a" KEqual; mk_mrow "a" KEqual]) &&
   refused (check_row_section_consistency (Some "a") [mk_mrow "a" KEqual; mk_mrow "b" KEqual]) &&
   match check_row_section_consistency (Some "a") [mk_mrow "b" KEqual; mk_mrow "c" KEqual] with Got _ => true | _ => false end)%bool = true.
Proof. vm_compute. reflexivity. Qed.
(** number/parse.rs:130-221 `parse`; the sign `Zero` is the case of the integer 0 *)
Definition raw_eqb (a b : raw) : bool := Bool.eqb (r_minus a) (r_minus b) && Z.eqb (r_integer a) (r_integer b) && Nat.eqb (r_steps a) (r_steps b).
Example parse_as_expected :
  forallb (fun '(t, m, i, s) => out_is raw_eqb (raw_from Checked t) (mk_raw m i s))
    [("1", false, 1%Z, 0); ("2.", false, 2%Z, 0); (".3", false, 3%Z, 1); ("-1", true, 1%Z, 0); ("-2.", true, 2%Z, 0); ("-.3", true, 3%Z, 1);
     ("16456", false, 16456%Z, 0); ("64896848.", false, 64896848%Z, 0); (".984654684", false, 984654684%Z, 9); ("-.95", true, 95%Z, 2);
     ("15465.2", false, 154652%Z, 1); ("1234.56789", false, 123456789%Z, 5); ("1.24654", false, 124654%Z, 5); ("0", false, 0%Z, 0); ("0.", false, 0%Z, 0); (".0", false, 0%Z, 1)] = true.
Proof. vm_compute. reflexivity. Qed.
(** 223-304 `convert` *)
Example convert_as_expected :
  forallb (fun '(m, i, s, v) => out_is qeqb (raw_to_number Checked (mk_raw m i s)) v)
    [(false, 1%Z, 0, z 1); (false, 2%Z, 0, z 2); (false, 3%Z, 1, q 3 10); (true, 1%Z, 0, z (-1)); (true, 2%Z, 0, z (-2)); (true, 3%Z, 1, q (-3) 10);
     (false, 16456%Z, 0, z 16456); (false, 64896848%Z, 0, z 64896848); (false, 984654684%Z, 9, q 246163671 250000000); (false, 12%Z, 1, q 12 10);
     (false, 123456789%Z, 5, q 123456789 100000); (false, 124654%Z, 5, q 62327 50000); (false, 0%Z, 0, z 0); (false, 0%Z, 1, z 0)] = true.
Proof. vm_compute. reflexivity. Qed.
(** convert.rs:524-585 `test_compute_b` *)
Definition b_found (rhss : list (group Qc)) (types : list rel) (kinds : list relation_kind) : out (list Qc) :=
  let~ r := compute_b rhss types (map (mk_mrow "") kinds) in Got (fst r).
Example compute_b_as_expected :
  (out_is (list_eqb qeqb) (b_found [] [] []) [] &&
   out_is (list_eqb qeqb) (b_found [mk_group "R" [(0, z 1)]] [Equal] [KEqual]) [z 1] &&
   out_is (list_eqb qeqb) (b_found [mk_group "R1" [(0, z 1)]; mk_group "R2" [(0, z 2)]] [Greater] [KGreater]) [z 2] &&
   out_is (list_eqb qeqb) (b_found [mk_group "R" [(0, z 1); (1, z 5)]] [Greater; Equal] [KGreater; KEqual]) [z 1; z 5])%bool = true.
Proof. vm_compute. reflexivity. Qed.

(** ** presolve/scale/rational/test.rs; `test_scale_variable` and the scaling of `test_scale` are in ExScale.v *)
Definition one_row (a b r : Z) (x y : variable) (fixed : Z) : general := new_general Minimize 1 (test_columns [[a; b]]%Z 2) [Equal] [z r] [x; y] ["x"; "y"] (z fixed).
Definition xv (c l u : Z) : variable := qvar (z c) (Some (z l)) (Some (z u)).
(** 11-49 `test_scale_nothing`, 54-93 `test_scale_cost`, 96-135 `test_scale_constraint`, 180-219 `test_scale_variable_bound_vs_constraint` *)
Example scale_single_rows_as_expected :
  (found_is (one_row 1 2 3 (xv 19 5 7) (xv 17 11 13) 0) (mk_scaling (z 1) [z 1] [z 1; z 1]) &&
   found_is (one_row 1 2 3 (xv 323 5 7) (xv 19 11 13) 16) (mk_scaling (q 1 19) [z 1] [z 1; z 1]) &&
   found_is (one_row 2 2 6 (xv 17 5 7) (xv 19 11 13) 16) (mk_scaling (z 1) [q 1 2] [z 1; z 1]) &&
   found_is (one_row 19 2 3 (xv 17 5 7) (xv 19 11 13) 16) (mk_scaling (z 1) [z 1] [z 1; z 1]))%bool = true.
Proof. vm_compute. reflexivity. Qed.
(** 221-337 `test_scale` *)
Definition powers_eqb : factorization -> factorization -> bool := list_eqb (pair_eqb Z.eqb Z.eqb).
Definition factored_eqb (a b : factored) : bool :=
  list_eqb Z.eqb (fa_factors a) (fa_factors b) && list_eqb (opt_eqb powers_eqb) (fa_b a) (fa_b b) && list_eqb (opt_eqb powers_eqb) (fa_c a) (fa_c b) &&
  list_eqb (pair_eqb (opt_eqb powers_eqb) (opt_eqb powers_eqb)) (fa_bounds a) (fa_bounds b) && list_eqb (list_eqb (pair_eqb Nat.eqb powers_eqb)) (fa_constraints a) (fa_constraints b).
Definition pw (l : list (Z * Z)) : factorization := l.
Definition factors_expected : factored :=
  mk_factored [2; 3; 7; 11]%Z [Some (pw [(3, 1)]%Z); None; Some (pw [(3, 1); (7, 1)]%Z); Some (pw [(11, 1)]%Z)] [Some (pw [(2, 2)]%Z); Some (pw [(11, 1)]%Z)]
    [(None, Some (pw [(2, 1); (3, 1)]%Z)); (Some [], Some (pw [(2, 1)]%Z))]
    [[(0, pw [(11, 1)]%Z); (1, pw [(2, 2)]%Z); (2, pw [(7, 1)]%Z)]; [(0, pw [(2, 1)]%Z); (1, pw [(2, 1); (3, 1)]%Z); (2, pw [(2, 1); (7, 1)]%Z); (3, pw [(11, 1)]%Z)]].
Definition factors_after_11 : factored :=
  mk_factored [2; 3; 7]%Z [Some (pw [(3, 1)]%Z); None; Some (pw [(3, 1); (7, 1)]%Z); Some []] [Some (pw [(2, 2)]%Z); Some []]
    [(None, Some (pw [(2, 1); (3, 1)]%Z)); (Some [], Some (pw [(2, 1)]%Z))]
    [[(0, []); (1, pw [(2, 2)]%Z); (2, pw [(7, 1)]%Z)]; [(0, pw [(2, 1)]%Z); (1, pw [(2, 1); (3, 1)]%Z); (2, pw [(2, 1); (7, 1)]%Z); (3, [])]].
Definition ex_scaled : general :=
  new_general Minimize 4 (test_columns [[11; 2]; [2; 3]; [1; 2]; [0; 1]]%Z 2) [Equal; Less; Greater; Equal] (dense [3; 0; 3; 1]%Z) [xv 4 0 6; xv 11 1 2] ["x"; "y"] (z 16).
Definition there_and_back (g expected : general) : bool :=
  match scale small 300 g with Ok (g', sc) => general_eqb g' expected && res_is general_eqb (scale_back g' sc) g | _ => false end.
Example scale_as_expected :
  (factored_eqb (factorize small ex_scale) factors_expected && factored_eqb (remove_factor_info 11 factors_expected) factors_after_11 && there_and_back ex_scale ex_scaled)%bool = true.
Proof. vm_compute. reflexivity. Qed.
(** 339-360 `test_solve_single_without_b` *)
Definition without_b : factored :=
  mk_factored [2; 3; 7; 11]%Z [None; None; None; None] [Some (pw [(11, 1)]%Z); Some (pw [(2, 2)]%Z)] [(None, None); (None, None)]
    [[(0, []); (1, pw [(2, 2)]%Z); (2, pw [(7, 1)]%Z)]; [(0, pw [(2, 1)]%Z); (1, pw [(2, 1); (3, 1)]%Z); (2, pw [(2, 1); (7, 1)]%Z); (3, pw [(11, 1)]%Z)]].
Example solve_single_without_b_as_expected :
  res_is (list_eqb (pair_eqb Z.eqb (pair_eqb (pair_eqb Z.eqb (list_eqb Z.eqb)) (list_eqb Z.eqb)))) (solve_scaling 300 without_b)
    [(11, ((0, [0; 0; 0; -1]), [0; 0])); (7, ((0, [0; 0; -1; 0]), [0; 0])); (3, ((0, [0; 0; 0; 0]), [0; 0])); (2, ((0, [0; -1; 0; 1]), [0; -1]))]%Z = true.
Proof. vm_compute. reflexivity. Qed.
(** 362-434 `test_range`, 436-477 `test_big` *)
Definition ranged (a r b : Z) : general :=
  new_general Minimize 2 (test_columns [[a; - a]; [1; 1]]%Z 2) [Range (z r); Less] [z b; z 1] [qvar (z 2) (Some (z 0)) (Some (q 1 2)); qvar (z 1) (Some (q 1 2)) (Some (z 1))] ["x"; "y"] (z 16).
Example scale_range_as_expected : (there_and_back (ranged 7 14 7) (ranged 1 2 1) && found_is (ranged 7 14 7) (mk_scaling (z 1) [q 1 7; z 1] [z 1; z 1]))%bool = true.
Proof. vm_compute. reflexivity. Qed.
