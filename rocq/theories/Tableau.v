(** * The tableau: model of /repo/src/algorithm/two_phase/tableau/mod.rs and tableau/kind/ *)
From Verif Require Export Carry.

Section Tableau.
Variable O : BIOps.

(** tableau/mod.rs:20-39 `struct Tableau`; the kind is passed separately because it never changes.
    `basis_columns` is a `HashSet`; only membership is ever observed, so a list is used. *)
Record tableau := mk_tab {
  t_im : carry O;
  t_cols : list nat
}.

(** tableau/mod.rs:155-160 `is_in_basis` *)
Definition in_basis (t : tableau) (j : nat) : bool := memb j (t_cols t).

(** tableau/mod.rs:106-112 `relative_cost` *)
Definition relative_cost (k : kind) (t : tableau) (j : nat) : Qc :=
  cost_difference (t_im t) (k_col k j) + k_cost k j.

(** tableau/mod.rs:126-131 `generate_column` *)
Definition generate_column (k : kind) (t : tableau) (j : nat) : res (cci O) :=
  bi_left O (c_bi (t_im t)) (k_col k j).

(** tableau/mod.rs:133-138 `generate_element` *)
Definition generate_element (k : kind) (t : tableau) (i j : nat) : res (option Qc) :=
  bi_elem O (c_bi (t_im t)) i (k_col k j).

(** tableau/mod.rs:48-64 `bring_into_basis` with 76-88 `update_basis_indices` *)
Definition bring_into_basis (k : kind) (t : tableau) (q p : nat) (cc : cci O) (cost : Qc)
  : res (tableau * change_info) :=
  let* ci := carry_change (t_im t) p q cc cost k in
  let (c, info) := ci in
  let removed := filter (fun j => negb (Nat.eqb j (i_leaving info))) (t_cols t) in
  Ok (mk_tab c (if memb q removed then removed else q :: removed), info).

(** tableau/mod.rs:164-176 `variable_value` *)
Definition variable_value (k : kind) (t : tableau) (j : nat) : res Qc :=
  if in_basis t j then
    let* row := findM (fun i => let* c := index (c_basis (t_im t)) i in Ok (Nat.eqb c j))
                  (seq 0 (k_rows k)) in
    let* i := ofopt row in
    index (c_b (t_im t)) i
  else Ok 0.

(** tableau/mod.rs:183-186 `current_bfs`, 197-199 `objective_function_value` *)
Definition current_bfs (t : tableau) : svec := carry_bfs (t_im t).
Definition objective_value (t : tableau) : Qc := - c_mobj (t_im t).

(** tableau/mod.rs:287-313 `select_primal_pivot_row` *)
Definition ratio_step (c : carry O) (acc : option (nat * Qc * nat)) (e : nat * Qc)
  : res (option (nat * Qc * nat)) :=
  let (row, x) := e in
  if qpos x then
    let* bv := index (c_b c) row in
    let* leaving := index (c_basis c) row in
    let ratio := bv / x in
    match acc with
    | None => Ok (Some (row, ratio, leaving))
    | Some (mi, mr, ml) =>
        if qeqb ratio mr && Nat.ltb leaving ml then Ok (Some (row, mr, leaving))
        else if qltb ratio mr then Ok (Some (row, ratio, leaving))
        else Ok acc
    end
  else Ok acc.
Definition select_row (t : tableau) (col : svec) : res (option nat) :=
  let* r := foldM (ratio_step (t_im t)) col None in
  Ok (match r with None => None | Some (i, _, _) => Some i end).

(** tableau/kind/artificial/fully.rs:88-97 `Tableau::new` *)
Definition new_fully (p : provider) : res tableau :=
  let* c := create_fully O (p_rhs p) in
  Ok (mk_tab c (seq 0 (p_rows p))).

(** tableau/kind/artificial/partially.rs:139-148: rows without an initial pivot.  [real] lists the
    rows of the pivots, [i] is the loop variable of that name; the inner `while` is [skip_real]. *)
Fixpoint skip_real (ith i : nat) (rest : list nat) : nat * list nat :=
  match rest with
  | r :: rest' => if Nat.eqb (ith + i) r then skip_real ith (S i) rest' else (i, rest)
  | [] => (i, rest)
  end.
Fixpoint artificial_rows (n ith i : nat) (rest : list nat) : list nat :=
  match n with
  | 0%nat => []
  | S n' => let (i', rest') := skip_real ith i rest in
            (ith + i')%nat :: artificial_rows n' (S ith) i' rest'
  end.
(** partially.rs:156-185: merge of artificial and real columns, one per row. [a] is
    `artificial_counter`. *)
Fixpoint merge_basis (nr_art n a : nat) (arts : list nat) (real : list (nat * nat))
  : res (list nat) :=
  match n with
  | 0%nat => Ok []
  | S n' =>
      match arts, real with
      | ra :: arts', (rr, j) :: real' =>
          if Nat.ltb ra rr
          then let* l := merge_basis nr_art n' (S a) arts' real in Ok (a :: l)
          else let* l := merge_basis nr_art n' a arts real' in Ok ((nr_art + j)%nat :: l)
      | _ :: arts', [] => let* l := merge_basis nr_art n' (S a) arts' [] in Ok (a :: l)
      | [], (_, j) :: real' => let* l := merge_basis nr_art n' a [] real' in Ok ((nr_art + j)%nat :: l)
      | [], [] => Panic
      end
  end.
(** partially.rs:125-205 `Tableau::new`; returns also `column_to_row`. `m - nr_real` must not
    underflow. *)
Definition new_partially (p : provider) (real : list (nat * nat)) : res (tableau * list nat) :=
  let m := p_rows p in
  if Nat.ltb m (length real) then Panic else
  let nr_art := (m - length real)%nat in
  let arts := artificial_rows nr_art 0 0 (map fst real) in
  let* basis := merge_basis nr_art m 0 arts real in
  let* c := create_partially O arts (p_rhs p) basis in
  Ok (mk_tab c basis, arts).

(** tableau/kind/artificial/mod.rs:69-72 `has_artificial_in_basis`, 74-79
    `artificial_basis_columns` *)
Definition has_artificial (k : kind) (t : tableau) : bool :=
  existsb (fun j => Nat.ltb j (k_art k)) (t_cols t).
Definition artificial_basis_columns (k : kind) (t : tableau) : res (list (nat * nat)) :=
  let* l := mapM (fun i => let* j := index (c_basis (t_im t)) i in Ok (i, j)) (seq 0 (k_rows k)) in
  Ok (filter (fun '(_, j) => Nat.ltb j (k_art k)) l).

(** tableau/kind/non_artificial.rs:151-172 `from_artificial` *)
Definition tab_from_artificial (c : carry O) (a : nat) (cols : list nat) (p : provider)
  : res tableau :=
  let* c' := carry_from_artificial c p a in
  let* cols' := mapM (unshift a) cols in
  Ok (mk_tab c' cols').

(** tableau/kind/non_artificial.rs:191-225 `from_artificial_removing_rows` *)
Definition tab_from_artificial_remove (c : carry O) (a : nat) (cols : list nat) (p : provider)
  (rm : list nat) : res tableau :=
  let* cols := foldM (fun cols row =>
                  let* j := index (c_basis c) row in
                  Ok (filter (fun x => negb (Nat.eqb x j)) cols)) rm cols in
  let* cols' := mapM (unshift a) cols in
  let* c' := carry_from_artificial_remove c p rm a in
  Ok (mk_tab c' cols').

End Tableau.
Arguments mk_tab {O}.
Arguments t_im {O}.
Arguments t_cols {O}.
Arguments in_basis {O}.
Arguments relative_cost {O}.
Arguments generate_column {O}.
Arguments generate_element {O}.
Arguments bring_into_basis {O}.
Arguments variable_value {O}.
Arguments current_bfs {O}.
Arguments objective_value {O}.
Arguments select_row {O}.
Arguments has_artificial {O}.
Arguments artificial_basis_columns {O}.
Arguments tab_from_artificial {O}.
Arguments tab_from_artificial_remove {O}.
