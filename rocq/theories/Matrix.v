(** * Sparse matrices: model of /repo/src/data/linear_algebra/matrix.rs

    A row major matrix stores its rows, a column major matrix its columns; "major" is the stored
    direction.  The type parameters for the element type and the comparator are dropped. *)
From Verif Require Export GeneralForm.

(** matrix.rs:23-30 `SparseMatrix` *)
Record matrix := mk_matrix { mx_data : list svec; mx_major : nat; mx_minor : nat }.

(** matrix.rs:391-411 `from_major_ordered_tuples`, called by the two `new` at 77-87 and 124-134 *)
Definition mx_rows_new (rows : list svec) (nr_rows nr_columns : nat) : matrix := mk_matrix rows nr_rows nr_columns.
Definition mx_columns_new (columns : list svec) (nr_rows nr_columns : nat) : matrix := mk_matrix columns nr_columns nr_rows.
(** matrix.rs:418-443 `from_minor_ordered_tuples`; 170-181 `from_column_major`; 293-303
    `from_row_ordered_tuples_although_this_is_expensive` *)
Definition mx_transpose (data : list svec) (minor : nat) : res matrix :=
  let* major_ordered := transpose_from 0 data (repeat [] minor) in
  Ok (mk_matrix major_ordered minor (length data)).
(** matrix.rs:464-473 `concatenate_major_indices` *)
Definition mx_concat (a b : matrix) : matrix :=
  mk_matrix (mx_data a ++ mx_data b) (mx_major a + mx_major b) (mx_minor a).
(** matrix.rs:480-489 `remove_major_indices` *)
Definition mx_remove_major (a : matrix) (rm : list nat) : res matrix :=
  if Nat.ltb (mx_major a) (length rm) then Panic else
  Ok (mk_matrix (remove_indices (mx_data a) rm) (mx_major a - length rm) (mx_minor a)).
(** matrix.rs:496-507 `remove_minor_indices`: the loop `for j in 0..major` indexes the data *)
Definition mx_remove_minor (a : matrix) (rm : list nat) : res matrix :=
  let* data := foldM (fun data j => let* c := index data j in Ok (upd data j (sremove c rm))) (seq 0 (mx_major a)) (mx_data a) in
  if Nat.ltb (mx_minor a) (length rm) then Panic else
  Ok (mk_matrix data (mx_major a) (mx_minor a - length rm)).
(** matrix.rs:523-531 `inner_set_value` *)
Definition mx_set (a : matrix) (i j : nat) (v : Qc) : res matrix :=
  let* c := index (mx_data a) i in
  Ok (mk_matrix (upd (mx_data a) i (sset c j v)) (mx_major a) (mx_minor a)).
(** matrix.rs:535-537 `size` *)
Definition mx_size (a : matrix) : nat := list_sum (map (@length _) (mx_data a)).
(** matrix.rs:547-557 `identity` *)
Definition mx_identity (n : nat) : matrix := mk_matrix (map sbasis (seq 0 n)) n n.
(** matrix.rs:91-121 `from_test_data` for row major, and 136-165 for column major order: the second one
    pushes `(row_index, value)` onto `data[column_index]` while walking over the rows *)
Definition mx_rows_dense (rows : list (list Qc)) (nr_columns : nat) : matrix :=
  mk_matrix (map sfrom rows) (length rows) nr_columns.
Definition mx_columns_dense (rows : list (list Qc)) (nr_columns : nat) : res matrix :=
  let* data := transpose_from 0 (map sfrom rows) (repeat [] nr_columns) in
  Ok (mk_matrix data nr_columns (length rows)).
(** matrix.rs:264-274 `change_row_signs` *)
Definition mx_change_row_signs (rows : list nat) (a : matrix) : matrix :=
  mk_matrix (change_row_signs rows (mx_data a)) (mx_major a) (mx_minor a).

(** ** Denotation and representation invariant (the `debug_assert!`s at matrix.rs:394-399) *)
Definition mval (a : matrix) (i j : nat) : Qc := den (nth i (mx_data a) []) j.
Definition mwf (a : matrix) : Prop :=
  length (mx_data a) = mx_major a /\ forall i, (i < mx_major a)%nat -> wfs (mx_minor a) (nth i (mx_data a) []).
