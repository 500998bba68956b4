(** * The carry matrix: model of
    /repo/src/algorithm/two_phase/tableau/inverse_maintenance/carry/mod.rs *)
From Verif Require Export Provider.

Section Carry.
Variable O : BIOps.

(** carry/mod.rs:25-58 `struct Carry` *)
Record carry := mk_carry {
  c_mobj : Qc;           (* minus_objective *)
  c_mpi : list Qc;       (* minus_pi *)
  c_b : list Qc;         (* b *)
  c_basis : list nat;    (* basis_indices *)
  c_bi : bi O            (* basis_inverse *)
}.

Definition sumq (l : list Qc) : Qc := fold_left (fun acc v => acc + v) l 0.

(** carry/mod.rs:374-395 `create_for_fully_artificial` *)
Definition create_fully (b : list Qc) : res carry :=
  let* i := bi_identity O (length b) in
  Ok (mk_carry (- sumq b) (repeat (- (1)) (length b)) b (seq 0 (length b)) i).

(** carry/mod.rs:418-433: the closure with `counter` that fills `minus_pi` *)
Fixpoint art_mpi (rows : list nat) (arts : list nat) : list Qc :=
  match rows with
  | [] => []
  | r :: rows' =>
      match arts with
      | a :: arts' => if Nat.eqb a r then - (1) :: art_mpi rows' arts' else 0 :: art_mpi rows' arts
      | [] => 0 :: art_mpi rows' arts
      end
  end.

(** carry/mod.rs:397-442 `create_for_partially_artificial` *)
Definition create_partially (arts : list nat) (b : list Qc) (basis : list nat) : res carry :=
  let m := length b in
  let* obj := foldM (fun acc a => let* v := index b a in Ok (acc + v)) arts 0 in
  let* i := bi_identity O m in
  Ok (mk_carry (- obj) (art_mpi (seq 0 m) arts) b basis i).

(** carry/mod.rs:226-260 `create_minus_pi_from_artificial`.  The code collects the columns of the
    basis inverse by multiplying with unit columns, transposes, and accumulates
    `pi[j] += value * cost(basis[i])` row by row; the order of the additions is kept. *)
Definition unit_columns (i : bi O) (m : nat) : res (list svec) :=
  mapM (fun j => let* c := bi_left O i (sbasis j) in Ok (cci_col O c)) (seq 0 m).
(** carry/mod.rs:244-249: `b_inverse_rows[i].push((j, v))` *)
Fixpoint push_column (j : nat) (col : svec) (rows : list svec) : res (list svec) :=
  match col with
  | [] => Ok rows
  | (i, v) :: t =>
      let* row := index rows i in
      push_column j t (upd rows i (row ++ [(j, v)]))
  end.
Fixpoint transpose_from (j : nat) (cols : list svec) (rows : list svec) : res (list svec) :=
  match cols with
  | [] => Ok rows
  | c :: t => let* rows' := push_column j c rows in transpose_from (S j) t rows'
  end.
Definition add_row_to_pi (pi : list Qc) (row : svec) (cost : Qc) : res (list Qc) :=
  foldM (fun pi '(j, v) => let* x := index pi j in Ok (upd pi j (x + v * cost))) row pi.
Fixpoint pi_loop (rows : list svec) (basis : list nat) (cost : nat -> Qc) (pi : list Qc)
  : res (list Qc) :=
  match rows with
  | [] => Ok pi
  | row :: rows' =>
      match basis with
      | [] => Panic
      | k :: basis' => let* pi' := add_row_to_pi pi row (cost k) in pi_loop rows' basis' cost pi'
      end
  end.
Definition create_minus_pi (i : bi O) (m : nat) (cost : nat -> Qc) (basis : list nat)
  : res (list Qc) :=
  let* cols := unit_columns i m in
  let* rows := transpose_from 0 cols (repeat [] m) in
  let* pi := pi_loop rows basis cost (repeat 0 m) in
  Ok (map Qcopp pi).

(** carry/mod.rs:270-283 `create_minus_obj_from_artificial` *)
Definition create_minus_obj (m : nat) (cost : nat -> Qc) (basis : list nat) (b : list Qc) : res Qc :=
  let* obj := foldM (fun acc row =>
                 let* k := index basis row in
                 let* v := index b row in
                 Ok (acc + v * cost k)) (seq 0 m) 0 in
  Ok (- obj).

(** carry/mod.rs:295-325 `update_b` *)
Definition update_b (b : list Qc) (p : nat) (col : svec) : res (list Qc) :=
  let* pv := ofopt (sget col p) in
  let* bp := index b p in
  let q := bp / pv in
  foldM (fun b '(i, v) =>
           if Nat.eqb i p then Ok b
           else let* x := index b i in Ok (upd b i (x - v * q))) col (upd b p q).

(** carry/mod.rs:338-349 `update_minus_pi_and_obj` *)
Definition update_mpi (mpi : list Qc) (cost : Qc) (row : svec) : res (list Qc) :=
  foldM (fun mpi '(j, v) => let* x := index mpi j in Ok (upd mpi j (x - cost * v))) row mpi.

(** tableau/mod.rs:207-234 `BasisChangeComputationInfo` *)
Record change_info := mk_info {
  i_row : nat;           (* pivot_row_index *)
  i_col : nat;           (* pivot_column_index *)
  i_leaving : nat;       (* leaving_column_index *)
  i_before : svec;       (* column_before_change *)
  i_work : svec;         (* work_vector *)
  i_binv_row : svec      (* basis_inverse_row *)
}.

(** columns of the basis, in the order of `basis_indices`; `original_column` panics for an index
    that is not a column of the kind *)
Definition basis_columns_of (k : kind) (basis : list nat) : res (list svec) :=
  mapM (fun j => if Nat.ltb j (k_cols k) then Ok (k_col k j) else Panic) basis.

(** carry/mod.rs:561-604 `change_basis` *)
Definition carry_change (c : carry) (p q : nat) (cc : cci O) (cost : Qc) (k : kind)
  : res (carry * change_info) :=
  let col := cci_col O cc in
  let* work := bi_right O (c_bi c) col in
  let* b := update_b (c_b c) p col in
  let* leaving := index (c_basis c) p in
  let basis := upd (c_basis c) p q in
  let* ib :=
    (if bi_refactor O (c_bi c)
     then let* cols := basis_columns_of k basis in
          let* i := bi_invert O cols in Ok (i, col)
     else bi_change O (c_bi c) p cc) in
  let (i, before) := ib in
  let* row := bi_row O i p in
  let* mpi := update_mpi (c_mpi c) cost row in
  let* bp := index b p in
  Ok (mk_carry (c_mobj c - cost * bp) mpi b basis i,
      mk_info p q leaving before work row).

(** carry/mod.rs:606-611 `cost_difference` *)
Definition cost_difference (c : carry) (col : svec) : Qc := ddot (c_mpi c) col.

(** insertion into a list sorted by key; equal keys keep their order (`sort_by_key` is stable) *)
Fixpoint insert_by {A} (key : A -> nat) (x : A) (l : list A) : list A :=
  match l with
  | [] => [x]
  | y :: t => if Nat.ltb (key x) (key y) then x :: l else y :: insert_by key x t
  end.
(** `sort_by_key` of the standard library, as insertion sort *)
Definition sort_by {A} (key : A -> nat) (l : list A) : list A :=
  fold_left (fun acc x => insert_by key x acc) l [].

(** carry/mod.rs:636-645 `current_bfs` *)
Definition carry_bfs (c : carry) : svec :=
  sort_by fst (filter (fun '(_, v) => negb (qzero v)) (combine (c_basis c) (c_b c))).

(** carry/mod.rs:444-478 `from_basis` *)
Definition from_basis (basis : list nat) (p : provider) : res carry :=
  let k := non_artificial p in
  let* cols := basis_columns_of k basis in
  let* i := bi_invert O cols in
  let* bc := bi_left O i (sfrom (p_rhs p)) in
  let* b := foldM (fun b '(r, v) => set_index b r v) (cci_col O bc) (repeat 0 (p_rows p)) in
  let* mobj := create_minus_obj (p_rows p) (p_cost p) basis b in
  let* mpi := create_minus_pi i (p_rows p) (p_cost p) basis in
  Ok (mk_carry mobj mpi b basis i).

(** carry/mod.rs:480-497 `from_basis_pivots` *)
Definition from_basis_pivots (pivots : list (nat * nat)) (p : provider) : res carry :=
  from_basis (map snd (sort_by fst pivots)) p.

(** `*index -= nr_artificial`: an unsigned subtraction that must not go below zero *)
Definition unshift (a : nat) (j : nat) : res nat := if Nat.ltb j a then Panic else Ok (j - a)%nat.

(** carry/mod.rs:499-525 `from_artificial` *)
Definition carry_from_artificial (c : carry) (p : provider) (a : nat) : res carry :=
  let* basis := mapM (unshift a) (c_basis c) in
  let* mpi := create_minus_pi (c_bi c) (p_rows p) (p_cost p) basis in
  let* mobj := create_minus_obj (p_rows p) (p_cost p) basis (c_b c) in
  Ok (mk_carry mobj mpi (c_b c) basis (c_bi c)).

(** carry/mod.rs:527-559 (representations without `RemoveBasisPart`: invert again) and 673-712
    (with `RemoveBasisPart`) `from_artificial_remove_rows`; [p] is the filtered provider. *)
Definition carry_from_artificial_remove (c : carry) (p : provider) (rm : list nat) (a : nat)
  : res carry :=
  let* basis := mapM (unshift a) (remove_indices (c_basis c) rm) in
  let* i := match bi_remove O with
            | None => let* cols := basis_columns_of (non_artificial p) basis in bi_invert O cols
            | Some remove => remove (c_bi c) rm
            end in
  let* mpi := create_minus_pi i (p_rows p) (p_cost p) basis in
  let b := remove_indices (c_b c) rm in
  let* mobj := create_minus_obj (p_rows p) (p_cost p) basis b in
  Ok (mk_carry mobj mpi b basis i).

End Carry.

Arguments mk_carry {O}.
Arguments c_mobj {O}.
Arguments c_mpi {O}.
Arguments c_b {O}.
Arguments c_basis {O}.
Arguments c_bi {O}.
Arguments carry_change {O}.
Arguments cost_difference {O}.
Arguments carry_bfs {O}.
Arguments carry_from_artificial {O}.
Arguments carry_from_artificial_remove {O}.
