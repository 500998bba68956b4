(** * Explicit basis inverse: model of
    /repo/src/algorithm/two_phase/tableau/inverse_maintenance/carry/basis_inverse_rows.rs *)
From Verif Require Export Lu.

(** basis_inverse_rows.rs:98-102 `identity` *)
Definition bir_identity (m : nat) : res (list svec) := Ok (map sbasis (seq 0 m)).

(** basis_inverse_rows.rs:104-129 `invert` *)
Definition bir_invert (cols : list svec) : res (list svec) :=
  let m := length cols in
  let* f := lu_invert cols in
  let* inv := mapM (fun j => let* c := lu_left f (sbasis j) in Ok (cs_column c)) (seq 0 m) in
  transpose_from 0 inv (repeat [] m).

(** basis_inverse_rows.rs:43-52 `normalize_pivot_row` *)
Definition bir_normalize (rows : list svec) (p : nat) (col : svec) : res (list svec) :=
  let* pv := ofopt (sget col p) in
  let* row := index rows p in
  Ok (upd rows p (sdiv row pv)).

(** basis_inverse_rows.rs:64-84 `row_reduce` *)
Definition bir_reduce (rows : list svec) (p : nat) (col : svec) : res (list svec) :=
  let* middle := index rows p in
  foldM (fun rows '(i, v) =>
           if Nat.eqb i p then Ok rows
           else let* row := index rows i in
                Ok (upd rows i (add_mult (- v) row middle))) col rows.

(** basis_inverse_rows.rs:131-145 `change_basis` *)
Definition bir_change (rows : list svec) (p : nat) (col : svec) : res (list svec * svec) :=
  let* rows := bir_normalize rows p col in
  let* rows := bir_reduce rows p col in
  Ok (rows, col).

(** basis_inverse_rows.rs:179-195 `generate_element` *)
Definition bir_elem (rows : list svec) (i : nat) (a : svec) : res (option Qc) :=
  let* row := index rows i in
  let e := sdot row a in
  Ok (if qzero e then None else Some e).

(** basis_inverse_rows.rs:147-160 `left_multiply_by_basis_inverse` *)
Definition bir_left (rows : list svec) (a : svec) : res svec :=
  foldM (fun acc i => let* e := bir_elem rows i a in
                      Ok (match e with Some v => acc ++ [(i, v)] | None => acc end))
    (seq 0 (length rows)) [].

(** basis_inverse_rows.rs:162-177 `right_multiply_by_basis_inverse` *)
Definition bir_right (rows : list svec) (r : svec) : res svec :=
  match r with
  | [] => Panic
  | (i, f) :: r =>
      let* row := index rows i in
      foldM (fun total '(i, f) => let* row := index rows i in Ok (add_mult f total row))
        r (smul row f)
  end.

(** basis_inverse_rows.rs:216-228 `remove_basis_part` *)
Definition bir_remove (rows : list svec) (rm : list nat) : res (list svec) :=
  Ok (map (fun row => sremove row rm) (remove_indices rows rm)).

(** basis_inverse_rows.rs:91-214 `impl BasisInverse for BasisInverseRows` with its
    `RemoveBasisPart`; 197-201 `should_refactor` is false; 203-205 `basis_inverse_row` *)
Definition BIR : BIOps :=
  mk_bi (list svec) svec (fun c => c) bir_identity bir_invert bir_change bir_left bir_right bir_elem
    (fun _ => false) (fun rows i => index rows i) (Some bir_remove).
