(** * Builds with debug assertions: the carry matrix, the tableau, the pivot rules and the phases

    The functions of Carry.v, Tableau.v, PivotRule.v and Solve.v as a debug build runs them: every
    `debug_assert!` on the way of `solve_relaxation` is evaluated where it stands, and one that
    fails is a panic.  Where assertions and work alternate the function is written out again.

    Assertions that repeat a check the release build makes too are not written twice: an index into
    a `Vec` or a dense vector, and `j < nr_columns` in a kind, which the tableau has asserted just
    before.  The length of a computed column is the number of rows of the basis inverse that
    computed it.  Not modelled are the assertions inside a matrix provider; the one assertion about
    its columns that is made during iteration, that no stored value is zero (column/mod.rs:130), is. *)
From Verif Require Export DebugLu Solve.

(** column/mod.rs:126-137 `SparseSliceIterator::new` *)
Definition slice_iter (l : svec) : res svec := let* _ := assert (all_nonzero l) in Ok l.
(** data/linear_algebra/vector/dense.rs:36-43 `constant` *)
Definition dense_constant (v : Qc) (len : nat) : res (list Qc) :=
  let* _ := assert (negb (Nat.eqb len 0)) in Ok (repeat v len).
(** data/linear_algebra/vector/dense.rs:95-99 `new` *)
Definition dense_new (data : list Qc) (len : nat) : res (list Qc) :=
  let* _ := assert (Nat.eqb (length data) len) in Ok data.
(** data/linear_algebra/vector/dense.rs:141-149 `remove_indices` *)
Definition dense_remove (data : list Qc) (rm : list nat) : res (list Qc) :=
  let* _ := assert (Nat.leb (length rm) (length data)) in
  let* _ := assert (is_sorted rm) in
  let* _ := assert (Nat.eqb (set_size rm) (length rm)) in
  let* _ := assert (all_below (length data) rm) in
  Ok (remove_indices data rm).
(** data/linear_algebra/vector/sparse.rs:149-160 `remove_indices` of a vector with length [len] *)
Definition sparse_remove (len : nat) (row : svec) (rm : list nat) : res svec :=
  let* _ := assert (is_sorted rm) in
  let* _ := assert (Nat.eqb (set_size rm) (length rm)) in
  let* _ := assert (all_below len rm) in
  let* _ := assert (Nat.ltb (length rm) len) in
  Ok (sremove row rm).
(** basis_inverse_rows.rs:216-228 `remove_basis_part` *)
Definition bir_remove_d (rows : list svec) (rm : list nat) : res (list svec) :=
  let old := length rows in
  let* _ := assert (Nat.ltb (length rm) old) in
  let* rows' := mapM (fun row => sparse_remove old row rm) (remove_indices rows rm) in
  let* _ := assert (Nat.eqb (length rows') (old - length rm)) in
  Ok rows'.
(** equality of sparse vectors with the same length *)
Fixpoint svec_eqb (a b : svec) : bool :=
  match a, b with
  | [], [] => true
  | (i, v) :: a', (j, w) :: b' => Nat.eqb i j && qeqb v w && svec_eqb a' b'
  | _, _ => false
  end.

(** The operations of a basis inverse in a debug build, on the states of the release build. *)
Record DOps (O : BIOps) := mk_dops {
  d_m : bi O -> nat;
  d_identity : nat -> res (bi O);
  d_invert : list svec -> res (bi O);
  d_change : bi O -> nat -> cci O -> res (bi O * svec);
  d_left : bi O -> svec -> res (cci O);
  d_right : bi O -> svec -> res svec;
  d_elem : bi O -> nat -> svec -> res (option Qc);
  d_row : bi O -> nat -> res svec;
  d_remove : option (bi O -> list nat -> res (bi O))
}.
Arguments d_m {O}.
Arguments d_identity {O}.
Arguments d_invert {O}.
Arguments d_change {O}.
Arguments d_left {O}.
Arguments d_right {O}.
Arguments d_elem {O}.
Arguments d_row {O}.
Arguments d_remove {O}.

(** lower_upper/mod.rs:59-280; 274 `m` *)
Definition LU_debug : DOps LU :=
  mk_dops LU lu_m lu_identity lu_invert_d lu_change_d lu_left_d lu_right_d lu_elem_d lu_row_d None.
(** basis_inverse_rows.rs:91-228; 207 `m` *)
Definition BIR_debug : DOps BIR :=
  mk_dops BIR (fun rows => length rows) bir_identity_d bir_invert_d bir_change_d bir_left_d bir_right_d
    bir_elem_d (fun rows i => index rows i) (Some bir_remove_d).

Section Debug.
Variable O : BIOps.
Variable D : DOps O.

(** ** carry/mod.rs *)
(** carry/mod.rs:374-395 `create_for_fully_artificial` *)
Definition create_fully_d (b : list Qc) : res (carry O) :=
  let m := length b in
  let* mpi := dense_constant (- (1)) m in
  let* b := dense_new b m in
  let* i := d_identity D m in
  Ok (mk_carry (- sumq b) mpi b (seq 0 m) i).

(** carry/mod.rs:397-442 `create_for_partially_artificial` *)
Definition create_partially_d (arts : list nat) (real : list (nat * nat)) (b : list Qc)
  (basis : list nat) : res (carry O) :=
  let m := length b in
  let* _ := assert (Nat.eqb (length arts + length real) m) in
  let merged := arts ++ keys real in
  let* _ := assert (all_below m merged) in
  let* _ := assert (Nat.eqb (set_size merged) m) in
  let* obj := foldM (fun acc a => let* v := index b a in Ok (acc + v)) arts 0 in
  let* mpi := dense_new (art_mpi (seq 0 m) arts) m in
  let* b := dense_new b m in
  let* i := d_identity D m in
  Ok (mk_carry (- obj) mpi b basis i).

(** carry/mod.rs:226-260 `create_minus_pi_from_artificial`; [n] is `provider.nr_rows()` *)
Definition create_minus_pi_d (i : bi O) (n : nat) (cost : nat -> Qc) (basis : list nat)
  : res (list Qc) :=
  let m := d_m D i in
  let* _ := assert (Nat.eqb n m) in
  let* _ := assert (Nat.eqb (length basis) m) in
  let* cols := mapM (fun j => let* c := d_left D i (sbasis j) in Ok (cci_col O c)) (seq 0 m) in
  let* rows := transpose_from 0 cols (repeat [] m) in
  let* pi := pi_loop rows basis cost (repeat 0 m) in
  Ok (map Qcopp pi).

(** carry/mod.rs:295-325 `update_b`; [len] is the length of the column *)
Definition update_b_d (b : list Qc) (p : nat) (col : svec) (len : nat) : res (list Qc) :=
  let* _ := assert (Nat.ltb p (length b)) in
  let* _ := assert (Nat.eqb len (length b)) in
  (* sparse.rs:139 *)
  let* _ := assert (Nat.ltb p len) in
  let* pv := ofopt (sget col p) in
  let* bp := index b p in
  let q := bp / pv in
  let* entries := slice_iter col in
  foldM (fun b '(i, v) =>
           if Nat.eqb i p then Ok b
           else let* x := index b i in Ok (upd b i (x - v * q))) entries (upd b p q).

(** carry/mod.rs:338-349 `update_minus_pi_and_obj` *)
Definition update_mpi_d (mpi : list Qc) (cost : Qc) (row : svec) : res (list Qc) :=
  let* entries := slice_iter row in update_mpi mpi cost entries.

(** columns of a basis, handed to `invert` *)
Definition basis_columns_d (k : kind) (basis : list nat) : res (list svec) :=
  let* cols := basis_columns_of k basis in mapM slice_iter cols.

(** carry/mod.rs:561-604 `change_basis` *)
Definition carry_change_d (c : carry O) (p q : nat) (cc : cci O) (cost : Qc) (k : kind)
  : res (carry O * change_info) :=
  let col := cci_col O cc in
  let len := d_m D (c_bi c) in
  let* _ := assert (Nat.ltb p (length (c_b c))) in
  let* _ := assert (Nat.eqb len (length (c_b c))) in
  let* entries := slice_iter col in
  let* work := d_right D (c_bi c) entries in
  let* b := update_b_d (c_b c) p col len in
  let* leaving := index (c_basis c) p in
  let basis := upd (c_basis c) p q in
  let* ib :=
    (if bi_refactor O (c_bi c)
     then let* cols := basis_columns_d k basis in
          let* i := d_invert D cols in Ok (i, col)
     else d_change D (c_bi c) p cc) in
  let (i, before) := ib in
  let* row := d_row D i p in
  let* mpi := update_mpi_d (c_mpi c) cost row in
  let* bp := index b p in
  Ok (mk_carry (c_mobj c - cost * bp) mpi b basis i,
      mk_info p q leaving before work row).

(** carry/mod.rs:444-478 `from_basis`, 480-497 `from_basis_pivots` *)
Definition from_basis_d (basis : list nat) (p : provider) : res (carry O) :=
  let k := non_artificial p in
  let* cols := basis_columns_d k basis in
  let* i := d_invert D cols in
  let* bcol := slice_iter (sfrom (p_rhs p)) in
  let* bc := d_left D i bcol in
  let* b := foldM (fun b '(r, v) => set_index b r v) (cci_col O bc) (repeat 0 (p_rows p)) in
  let* b := dense_new b (p_rows p) in
  let* mobj := create_minus_obj (p_rows p) (p_cost p) basis b in
  let* mpi := create_minus_pi_d i (p_rows p) (p_cost p) basis in
  Ok (mk_carry mobj mpi b basis i).
Definition from_basis_pivots_d (pivots : list (nat * nat)) (p : provider) : res (carry O) :=
  from_basis_d (map snd (sort_by fst pivots)) p.

(** carry/mod.rs:198-217 `new` *)
Definition carry_new_d (mobj : Qc) (mpi b : list Qc) (basis : list nat) (i : bi O) : res (carry O) :=
  let m := d_m D i in
  let* _ := assert (Nat.eqb (length mpi) m) in
  let* _ := assert (Nat.eqb (length b) m) in
  let* _ := assert (Nat.eqb (length basis) m) in
  Ok (mk_carry mobj mpi b basis i).

(** carry/mod.rs:499-525 `from_artificial` *)
Definition carry_from_artificial_d (c : carry O) (p : provider) (a : nat) : res (carry O) :=
  let* _ := assert (Nat.eqb (length (c_b c)) (p_rows p)) in
  let* basis := mapM (unshift a) (c_basis c) in
  let* mpi := create_minus_pi_d (c_bi c) (p_rows p) (p_cost p) basis in
  let* mobj := create_minus_obj (p_rows p) (p_cost p) basis (c_b c) in
  carry_new_d mobj mpi (c_b c) basis (c_bi c).

(** carry/mod.rs:527-559 and 673-712 `from_artificial_remove_rows`; 684 stands only in the latter *)
Definition carry_from_artificial_remove_d (c : carry O) (p : provider) (rm : list nat) (a : nat)
  : res (carry O) :=
  let* _ := assert (Nat.eqb (length (c_basis c)) (p_rows p + length rm)) in
  let left_over := remove_indices (c_basis c) rm in
  let* _ := (match d_remove D with
             | None => Ok tt
             | Some _ => assert (Nat.eqb (length left_over) (p_rows p))
             end) in
  let* basis := mapM (unshift a) left_over in
  let* i := match d_remove D with
            | None => let* cols := basis_columns_d (non_artificial p) basis in d_invert D cols
            | Some remove => remove (c_bi c) rm
            end in
  let* mpi := create_minus_pi_d i (p_rows p) (p_cost p) basis in
  let* b := dense_remove (c_b c) rm in
  let* mobj := create_minus_obj (p_rows p) (p_cost p) basis b in
  carry_new_d mobj mpi b basis i.

(** ** tableau/mod.rs *)
(** tableau/mod.rs:140-144 `original_column`, and the iteration over it that follows *)
Definition original_d (k : kind) (j : nat) : res svec :=
  let* _ := assert (Nat.ltb j (k_cols k)) in slice_iter (k_col k j).
(** tableau/mod.rs:155-160 `is_in_basis` *)
Definition in_basis_d (k : kind) (t : tableau O) (j : nat) : res bool :=
  let* _ := assert (Nat.ltb j (k_cols k)) in Ok (in_basis t j).
(** tableau/mod.rs:106-112 `relative_cost` *)
Definition relative_cost_d (k : kind) (t : tableau O) (j : nat) : res Qc :=
  let* col := original_d k j in Ok (cost_difference (t_im t) col + k_cost k j).
(** tableau/mod.rs:126-131 `generate_column` *)
Definition generate_column_d (k : kind) (t : tableau O) (j : nat) : res (cci O) :=
  let* col := original_d k j in d_left D (c_bi (t_im t)) col.
(** tableau/mod.rs:133-138 and carry/mod.rs:622-634 `generate_element` *)
Definition generate_element_d (k : kind) (t : tableau O) (i j : nat) : res (option Qc) :=
  let* _ := assert (Nat.ltb i (k_rows k)) in
  let* col := original_d k j in
  let* _ := assert (Nat.ltb i (length (c_b (t_im t)))) in
  d_elem D (c_bi (t_im t)) i col.
(** tableau/mod.rs:48-64 `bring_into_basis` with 76-88 `update_basis_indices` *)
Definition bring_into_basis_d (k : kind) (t : tableau O) (q p : nat) (cc : cci O) (cost : Qc)
  : res (tableau O * change_info) :=
  let* _ := assert (Nat.ltb q (k_cols k)) in
  let* _ := assert (Nat.ltb p (k_rows k)) in
  let* ci := carry_change_d (t_im t) p q cc cost k in
  let (c, info) := ci in
  let* _ := assert (Nat.ltb (i_leaving info) (k_cols k)) in
  let* _ := assert (memb (i_leaving info) (t_cols t)) in
  let removed := filter (fun j => negb (Nat.eqb j (i_leaving info))) (t_cols t) in
  let* _ := assert (negb (memb q removed)) in
  Ok (mk_tab c (q :: removed), info).
(** tableau/mod.rs:164-176 `variable_value` *)
Definition variable_value_d (k : kind) (t : tableau O) (j : nat) : res Qc :=
  let* _ := assert (Nat.ltb j (k_cols k)) in variable_value k t j.
(** tableau/mod.rs:183-186 `current_bfs` *)
Definition current_bfs_d (k : kind) (t : tableau O) : res svec :=
  sparse_new (carry_bfs (t_im t)) (k_cols k).
(** tableau/mod.rs:287-313 `select_primal_pivot_row` *)
Definition select_row_d (k : kind) (t : tableau O) (col : svec) : res (option nat) :=
  let* _ := assert (Nat.eqb (d_m D (c_bi (t_im t))) (k_rows k)) in
  let* entries := slice_iter col in
  select_row t entries.

(** tableau/mod.rs:319-356 `debug_assert_in_basic_feasible_solution_state` *)
Definition bfs_state_d (k : kind) (t : tableau O) : res unit :=
  let m := k_rows k in
  let* _ := assert (Nat.eqb (set_size (t_cols t)) m) in
  let* _ := mapM (fun i =>
              let* j := index (c_basis (t_im t)) i in
              let* e := sparse_new [(i, 1)] m in
              let* c := generate_column_d k t j in
              assert (svec_eqb (cci_col O c) e)) (seq 0 m) in
  let* _ := mapM (fun i =>
              let* j := index (c_basis (t_im t)) i in
              let* c := relative_cost_d k t j in
              assert (qzero c)) (seq 0 m) in
  let* _ := mapM (fun i =>
              let* v := index (c_b (t_im t)) i in
              assert (qleb 0 v)) (seq 0 m) in
  Ok tt.

(** ** tableau/kind *)
(** fully.rs:88-97 `Tableau::new` *)
Definition new_fully_d (p : provider) : res (tableau O) :=
  let* c := create_fully_d (p_rhs p) in
  Ok (mk_tab c (seq 0 (p_rows p))).
(** partially.rs:125-205 `Tableau::new` *)
Definition new_partially_d (p : provider) (real : list (nat * nat)) : res (tableau O * list nat) :=
  let m := p_rows p in
  let* _ := assert (is_sorted (keys real)) in
  if Nat.ltb m (length real) then Panic else
  let nr_art := (m - length real)%nat in
  let arts := artificial_rows nr_art 0 0 (map fst real) in
  (* 147 *)
  let* _ := assert (forallb (fun a => negb (memb a (keys real))) arts) in
  (* 149, 155 *)
  let* _ := assert (all_below m arts) in
  let* _ := assert (is_sorted arts) in
  let* basis := merge_basis nr_art m 0 arts real in
  let* c := create_partially_d arts real (p_rhs p) basis in
  Ok (mk_tab c basis, arts).
(** non_artificial.rs:151-172 `from_artificial` *)
Definition tab_from_artificial_d (c : carry O) (a : nat) (cols : list nat) (p : provider)
  : res (tableau O) :=
  let* c' := carry_from_artificial_d c p a in
  let* cols' := mapM (unshift a) cols in
  Ok (mk_tab c' cols').
(** non_artificial.rs:191-225 `from_artificial_removing_rows`; the first assertion looks up the basic
    column of every removed row *)
Definition tab_from_artificial_remove_d (c : carry O) (a : nat) (cols : list nat) (p : provider)
  (rm : list nat) : res (tableau O) :=
  let* gone := mapM (fun row => index (c_basis c) row) rm in
  let* _ := assert (forallb (fun v => Nat.leb a v || memb v gone) cols) in
  let* cols := foldM (fun cols row =>
                  let* j := index (c_basis c) row in
                  let* _ := assert (memb j cols) in
                  Ok (filter (fun x => negb (Nat.eqb x j)) cols)) rm cols in
  let* cols' := mapM (unshift a) cols in
  let* c' := carry_from_artificial_remove_d c p rm a in
  Ok (mk_tab c' cols').

(** ** strategy/pivot_rule.rs *)
(** A rule of the release build, on the same states. *)
Record DRule (R : Rule O) := mk_drule {
  dr_new : kind -> tableau O -> res (r_state R);
  dr_select : r_state R -> kind -> tableau O -> res (option (nat * Qc) * r_state R);
  dr_after : r_state R -> change_info -> kind -> tableau O -> res (r_state R)
}.
(** pivot_rule.rs:104-107, 130-133 *)
Fixpoint find_profitable_d (k : kind) (t : tableau O) (l : list nat) : res (option (nat * Qc)) :=
  match l with
  | [] => Ok None
  | j :: l' =>
      let* b := in_basis_d k t j in
      if b then find_profitable_d k t l'
      else let* c := relative_cost_d k t j in
           if qneg c then Ok (Some (j, c)) else find_profitable_d k t l'
  end.
(** pivot_rule.rs:86-109 `FirstProfitable` *)
Definition first_profitable_d : DRule (first_profitable O) :=
  mk_drule (first_profitable O)
    (fun _ _ => Ok tt)
    (fun s k t => let* r := find_profitable_d k t (range (k_art k) (k_cols k)) in Ok (r, s))
    (fun s _ _ _ => Ok s).
(** pivot_rule.rs:113-150 `FirstProfitableWithMemory` *)
Definition first_profitable_memory_d : DRule (first_profitable_memory O) :=
  mk_drule (first_profitable_memory O)
    (fun _ _ => Ok None)
    (fun s k t =>
       let* r := match s with
                 | None => find_profitable_d k t (range (k_art k) (k_cols k))
                 | Some last =>
                     let* x := find_profitable_d k t (range (last + 1) (k_cols k)) in
                     match x with
                     | Some x => Ok (Some x)
                     | None => find_profitable_d k t (range (k_art k) last)
                     end
                 end in
       Ok (r, option_map fst r))
    (fun s _ _ _ => Ok s).
(** pivot_rule.rs:153-187 `SteepestDescentAlongVariable` *)
Definition steepest_variable_step_d (k : kind) (t : tableau O) (acc : option (nat * Qc)) (j : nat)
  : res (option (nat * Qc)) :=
  let* b := in_basis_d k t j in
  if b then Ok acc else
  let* c := relative_cost_d k t j in
  if qneg c then
    match acc with
    | None => Ok (Some (j, c))
    | Some (_, c0) => if qltb c c0 then Ok (Some (j, c)) else Ok acc
    end
  else Ok acc.
Definition steepest_variable_d : DRule (steepest_variable O) :=
  mk_drule (steepest_variable O)
    (fun _ _ => Ok tt)
    (fun s k t => let* r := foldM (steepest_variable_step_d k t) (range (k_art k) (k_cols k)) None in
                  Ok (r, s))
    (fun s _ _ _ => Ok s).
(** pivot_rule.rs:299-305 `initial_gamma` *)
Definition initial_gamma_d (k : kind) (t : tableau O) (j : nat) : res Qc :=
  let* cc := generate_column_d k t j in Ok (1 + sqnorm (cci_col O cc)).
(** pivot_rule.rs:202-219 `SteepestDescentAlongObjective::new` *)
Definition sdo_new_d (k : kind) (t : tableau O) : res (list (option Qc)) :=
  mapM (fun j => if Nat.leb (k_art k) j
                 then let* b := in_basis_d k t j in
                      if negb b then let* g := initial_gamma_d k t j in Ok (Some g) else Ok None
                 else Ok None)
    (seq 0 (k_cols k)).
(** pivot_rule.rs:221-241 `select_primal_pivot_column`; the assertion in 236 is followed by an
    `unwrap` of the same value *)
Definition sdo_step_d (k : kind) (t : tableau O) (gamma : list (option Qc))
  (acc : option (nat * Qc * Qc)) (j : nat) : res (option (nat * Qc * Qc)) :=
  let* b := in_basis_d k t j in
  if b then Ok acc else
  let* c := relative_cost_d k t j in
  if qneg c then
    let* og := index gamma j in
    let* g := ofopt og in
    let key := c * c / g in
    match acc with
    | None => Ok (Some (j, c, key))
    | Some (_, _, key0) => if qltb key key0 then Ok acc else Ok (Some (j, c, key))
    end
  else Ok acc.
Definition sdo_select_d (gamma : list (option Qc)) (k : kind) (t : tableau O)
  : res (option (nat * Qc)) :=
  let* r := foldM (sdo_step_d k t gamma) (range (k_art k) (k_cols k)) None in
  Ok (option_map (fun '(j, c, _) => (j, c)) r).
(** pivot_rule.rs:262-291: for every weight that is present, the update and the comparison of the
    result with the weight computed from scratch *)
Fixpoint sdo_update_from_d (k : kind) (t : tableau O) (info : change_info) (gq : Qc) (j : nat)
  (gamma : list (option Qc)) : res (list (option Qc)) :=
  match gamma with
  | [] => Ok []
  | og :: rest =>
      let* og' :=
        match og with
        | Some g =>
            if Nat.ltb j (k_art k) then Ok (Some g)
            else let* _ := original_d k j in
                 let g' := sdo_update_gamma k info gq j g in
                 let* fresh := initial_gamma_d k t j in
                 let* _ := assert (qeqb g' fresh) in
                 Ok (Some g')
        | None => Ok None
        end in
      let* rest' := sdo_update_from_d k t info gq (S j) rest in
      Ok (og' :: rest')
  end.
(** pivot_rule.rs:243-296 `after_basis_update`; sparse.rs:139 for the last step *)
Definition sdo_after_d (gamma : list (option Qc)) (info : change_info) (k : kind) (t : tableau O)
  : res (list (option Qc)) :=
  let* gamma := set_index gamma (i_col info) None in
  let gq := 1 + sqnorm (i_before info) in
  let* gamma := sdo_update_from_d k t info gq 0 gamma in
  let* _ := assert (Nat.ltb (i_row info) (d_m D (c_bi (t_im t)))) in
  let* wp := ofopt (sget (i_before info) (i_row info)) in
  set_index gamma (i_leaving info) (Some (gq / (wp * wp))).
(** pivot_rule.rs:190-296 `SteepestDescentAlongObjective` *)
Definition steepest_objective_d : DRule (steepest_objective O) :=
  mk_drule (steepest_objective O)
    sdo_new_d
    (fun s k t => let* r := sdo_select_d s k t in Ok (r, s))
    sdo_after_d.

(** ** The phases *)
Variable R : Rule O.
Variable RD : DRule R.

(** phase_one.rs:134-175 and phase_two.rs:36-58: one turn, which begins with the check of the state *)
Definition simplex_step_d (k : kind) (t : tableau O) (s : r_state R) : res (step_result O R) :=
  let* _ := bfs_state_d k t in
  let* sel := dr_select R RD s k t in
  let (choice, s) := sel in
  match choice with
  | None => Ok (StepNoColumn O R)
  | Some (q, cost) =>
      let* cc := generate_column_d k t q in
      let* row := select_row_d k t (cci_col O cc) in
      match row with
      | None => Ok (StepNoRow O R)
      | Some p =>
          let* ti := bring_into_basis_d k t q p cc cost in
          let (t', info) := ti in
          let* s' := dr_after R RD s info k t' in
          Ok (StepPivot O R t' s')
      end
  end.
Fixpoint simplex_loop_d (fuel : nat) (k : kind) (t : tableau O) (s : r_state R)
  : res (loop_result O) :=
  match fuel with
  | 0%nat => Fuel
  | S fuel' =>
      let* r := simplex_step_d k t s in
      match r with
      | StepNoColumn _ _ => Ok (LoopOptimal O t)
      | StepNoRow _ _ => Ok (LoopUnbounded O t)
      | StepPivot _ _ t' s' => simplex_loop_d fuel' k t' s'
      end
  end.

(** phase_two.rs:22-60 `primal` *)
Definition phase_two_d (fuel : nat) (k : kind) (t : tableau O) : res opt_result :=
  let* s := dr_new R RD k t in
  let* r := simplex_loop_d fuel k t s in
  match r with
  | LoopOptimal _ t' => let* x := current_bfs_d k t' in Ok (FiniteOptimum x)
  | LoopUnbounded _ _ => Ok Unbounded
  end.

(** phase_one.rs:247-263; the cost of a candidate is computed in both branches *)
Definition removal_ok_d (k : kind) (t : tableau O) (row : nat) (value : Qc) (j : nat) : res bool :=
  let* b := in_basis_d k t j in
  if b then Ok false else
  let* cost := relative_cost_d k t j in
  if qzero value then
    let* e := generate_element_d k t row j in
    Ok (match e with Some x => negb (qzero x) | None => false end)
  else
    if qzero cost then
      let* e := generate_element_d k t row j in
      Ok (match e with Some x => qpos x | None => false end)
    else Ok false.
(** phase_one.rs:243-274: one turn of the loop *)
Definition removal_step_d (k : kind) (st : tableau O * list nat) (e : nat * nat)
  : res (tableau O * list nat) :=
  let (t, rows) := st in
  let (row, artificial) := e in
  let* b := in_basis_d k t artificial in
  let* _ := assert b in
  let* value := variable_value_d k t artificial in
  let* found := findM (removal_ok_d k t row value) (range (k_art k) (k_cols k)) in
  let* st' :=
    match found with
    | Some q =>
        let* cost := relative_cost_d k t q in
        let* cc := generate_column_d k t q in
        let* ti := bring_into_basis_d k t q row cc cost in
        let* b := in_basis_d k (fst ti) artificial in
        let* _ := assert (negb b) in
        Ok (fst ti, rows)
    | None => Ok (t, rows ++ [row])
    end in
  let* _ := bfs_state_d k (fst st') in
  Ok st'.
(** phase_one.rs:232-278 `remove_artificial_basis_variables` *)
Definition remove_artificials_d (k : kind) (t : tableau O) : res (tableau O * list nat) :=
  let* arts := artificial_basis_columns k t in
  let* _ := assert (is_sorted (keys arts)) in
  let* r := foldM (removal_step_d k) arts (t, []) in
  let* _ := assert (is_sorted (snd r)) in
  Ok r.

(** phase_one.rs:123-177 `primal` *)
Definition phase_one_d (fuel : nat) (k : kind) (t : tableau O) : res (feasibility O) :=
  let* s := dr_new R RD k t in
  let* r := simplex_loop_d fuel k t s in
  match r with
  | LoopUnbounded _ _ => Panic
  | LoopOptimal _ t' =>
      if qzero (objective_value t') then
        if has_artificial k t' then
          let* tr := remove_artificials_d k t' in
          let (t'', rows) := tr in
          match rows with
          | [] => Ok (PhaseOneFeasible O RankFull t'')
          | _ => Ok (PhaseOneFeasible O (RankDeficient rows) t'')
          end
        else Ok (PhaseOneFeasible O RankFull t')
      else Ok (PhaseOneInfeasible O)
  end.

(** phase_one.rs:45-60 and 86-105 `compute_bfs_giving_im` *)
Definition compute_bfs_d (fuel : nat) (p : provider) : res (feasibility O * nat) :=
  match p_init p with
  | NoInit =>
      let k := fully p in
      let* t := new_fully_d p in
      let* f := phase_one_d fuel k t in
      Ok (f, k_art k)
  | PartialInit real | FullInit real =>
      let* ta := new_partially_d p real in
      let (t, arts) := ta in
      let k := partially p arts in
      let* f := phase_one_d fuel k t in
      Ok (f, k_art k)
  end.

(** filter/generic_wrapper.rs:87-95 `to_filtered` *)
Definition to_filtered_d (p : provider) (rows : list nat) : res provider :=
  let* _ := assert (is_sorted rows) in
  let* _ := assert (Nat.eqb (set_size rows) (length rows)) in
  Ok (remove_rows p rows).
(** two_phase/mod.rs:30-73 and 87-113 `solve_relaxation` *)
Definition solve_two_phase_d (fuel : nat) (p : provider) : res opt_result :=
  let* fa := compute_bfs_d fuel p in
  let (f, a) := fa in
  match f with
  | PhaseOneInfeasible _ => Ok Infeasible
  | PhaseOneFeasible _ (RankDeficient ((_ :: _) as rows)) t =>
      let* p' := to_filtered_d p rows in
      let* t' := tab_from_artificial_remove_d (t_im t) a (t_cols t) p' rows in
      phase_two_d fuel (non_artificial p') t'
  | PhaseOneFeasible _ _ t =>
      let* t' := tab_from_artificial_d (t_im t) a (t_cols t) p in
      phase_two_d fuel (non_artificial p) t'
  end.
Definition solve_full_basis_d (fuel : nat) (p : provider) (pivots : list (nat * nat)) : res opt_result :=
  let* c := from_basis_pivots_d pivots p in
  phase_two_d fuel (non_artificial p) (mk_tab c (map snd pivots)).
Definition solve_d (fuel : nat) (p : provider) : res opt_result :=
  match p_init p with
  | FullInit pivots => solve_full_basis_d fuel p pivots
  | _ => solve_two_phase_d fuel p
  end.

End Debug.
