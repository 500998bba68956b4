(** * Properties of vectors, matrices, filtered providers and networks (C34 - C36)

    [den v i] is entry [i] of the vector a sparse list [v] stands for, [wfs m v] says that [v] is sorted,
    has its indices below [m] and no zero values; [mval], [mwf] are the same for matrices (first index in
    the stored direction).  [kept n rm] is the increasing list of the numbers below [n] not in [rm], and
    [sorted_rows n rm] says that [rm] has no duplicates and lies below [n]. *)
From Verif Require Import DataP.
Local Open Scope Qc_scope.

(** ** C34: vectors *)
(** the representation is unique: comparing lists compares vectors *)
Theorem C34_equal_vectors_equal_lists : forall m a b, wfs m a -> wfs m b -> (forall i, (i < m)%nat -> den a i = den b i) -> a = b.
Proof. exact wfs_ext. Qed.
Print Assumptions C34_equal_vectors_equal_lists.
Theorem C34_get : forall m l i, wfs m l -> sget l i = if qzero (den l i) then None else Some (den l i).
Proof. exact sget_spec. Qed.
Print Assumptions C34_get.
Theorem C34_set : forall m l k v, wfs m l -> (k < m)%nat -> v <> 0 ->
  wfs m (sset l k v) /\ forall i, den (sset l k v) i = if Nat.eqb i k then v else den l i.
Proof. exact sset_ok. Qed.
Print Assumptions C34_set.
Theorem C34_set_zero : forall m l k, wfs m l -> wfs m (set_zero l k) /\ forall i, den (set_zero l k) i = if Nat.eqb i k then 0 else den l i.
Proof. exact set_zero_ok. Qed.
Print Assumptions C34_set_zero.
Theorem C34_shift : forall m l k v, wfs m l -> (k < m)%nat ->
  wfs m (shift_value l k v) /\ forall i, den (shift_value l k v) i = den l i + if Nat.eqb i k then v else 0.
Proof. exact shift_value_fwf. Qed.
Print Assumptions C34_shift.
Theorem C34_add_multiple : forall m a b mult, wfs m a -> wfs m b -> mult <> 0 ->
  wfs m (add_mult mult a b) /\ forall i, den (add_mult mult a b) i = den a i + mult * den b i.
Proof. exact add_ok. Qed.
Print Assumptions C34_add_multiple.
Theorem C34_multiply : forall m l c, wfs m l -> c <> 0 -> wfs m (smul l c) /\ forall i, den (smul l c) i = den l i * c.
Proof. exact smul_ok. Qed.
Print Assumptions C34_multiply.
Theorem C34_divide : forall m l c, wfs m l -> c <> 0 -> wfs m (sdiv l c) /\ forall i, den (sdiv l c) i = den l i / c.
Proof. exact sdiv_ok. Qed.
Print Assumptions C34_divide.
Theorem C34_inner_product : forall m a b, wfs m a -> wfs m b -> sdot a b = sum m (fun i => den a i * den b i).
Proof. exact sdot_spec. Qed.
Print Assumptions C34_inner_product.
Theorem C34_inner_product_with_dense : forall m d l, wfs m l -> ddot d l = sum m (fun i => nthq d i * den l i).
Proof. exact ddot_spec. Qed.
Print Assumptions C34_inner_product_with_dense.
Theorem C34_squared_norm : forall m l, wfs m l -> sqnorm l = sum m (fun i => den l i * den l i).
Proof. exact sqnorm_spec. Qed.
Print Assumptions C34_squared_norm.
Theorem C34_unit_vector : forall m k, (k < m)%nat -> wfs m (sbasis k) /\ forall i, den (sbasis k) i = if Nat.eqb i k then 1 else 0.
Proof. exact sbasis_ok. Qed.
Print Assumptions C34_unit_vector.
Theorem C34_from_values : forall l, wfs (length l) (sfrom l) /\ forall i, den (sfrom l) i = nthq l i.
Proof. exact sfrom_spec. Qed.
Print Assumptions C34_from_values.
Theorem C34_extend : forall v k, sp_ok v -> sp_ok (sp_extend v k) /\ sp_len (sp_extend v k) = (sp_len v + k)%nat /\
  forall i, sp_val (sp_extend v k) i = if Nat.ltb i (sp_len v) then sp_val v i else 0.
Proof. exact sp_extend_ok. Qed.
Print Assumptions C34_extend.
Theorem C34_push : forall v x, sp_ok v -> x <> 0 -> sp_ok (sp_push v x) /\ sp_len (sp_push v x) = S (sp_len v) /\
  forall i, sp_val (sp_push v x) i = if Nat.eqb i (sp_len v) then x else sp_val v i.
Proof. exact sp_push_ok. Qed.
Print Assumptions C34_push.
Theorem C34_remove_indices : forall v rm, sp_ok v -> sorted_rows (sp_len v) rm ->
  sp_ok (sp_remove v rm) /\ sp_len (sp_remove v rm) = (sp_len v - length rm)%nat /\
  forall i, (i < sp_len v - length rm)%nat -> sp_val (sp_remove v rm) i = sp_val v (nth i (kept (sp_len v) rm) 0%nat).
Proof. exact sp_remove_ok. Qed.
Print Assumptions C34_remove_indices.
Theorem C34_dense_remove_indices : forall l rm i, sorted_rows (length l) rm -> length (remove_indices l rm) = (length l - length rm)%nat /\
  ((i < length l - length rm)%nat -> nthq (remove_indices l rm) i = nthq l (nth i (kept (length l) rm) 0%nat)).
Proof. exact dense_remove. Qed.
Print Assumptions C34_dense_remove_indices.
Example C34_case : wfs 5 ex_a /\ wfs 5 ex_b.
Proof. exact ex_vectors_ok. Qed.
Example C34_values : add_mult (zq 2) ex_a ex_b = [(0%nat, zq 10); (3%nat, zq (-1)); (4%nat, zq 14)] /\
  sremove ex_b [0; 3]%nat = [(0%nat, zq (-1)); (2%nat, zq 7)] /\ shift_value ex_a 3 (zq 1) = [(1%nat, zq 2)] /\
  sdot ex_a ex_b = zq (-2) /\ sqnorm ex_a = zq 5.
Proof. exact ex_vectors. Qed.
(** ** C34: matrices *)
Theorem C34_matrix_transpose : forall data minor, (forall i, (i < length data)%nat -> wfs minor (nth i data [])) ->
  exists a, mx_transpose data minor = Ok a /\ mwf a /\ mx_major a = minor /\ mx_minor a = length data /\
    forall i j, mval a j i = den (nth i data []) j.
Proof. exact transpose_ok. Qed.
Print Assumptions C34_matrix_transpose.
Theorem C34_matrix_transpose_panics : forall data minor j i v, (i < length data)%nat -> In (j, v) (nth i data []) -> (minor <= j)%nat ->
  mx_transpose data minor = Panic.
Proof. exact transpose_panics_on_wide. Qed.
Print Assumptions C34_matrix_transpose_panics.
Theorem C34_matrix_concatenate : forall a b, mwf a -> mwf b -> mx_minor a = mx_minor b ->
  mwf (mx_concat a b) /\ mx_major (mx_concat a b) = (mx_major a + mx_major b)%nat /\ mx_minor (mx_concat a b) = mx_minor a /\
  forall i j, mval (mx_concat a b) i j = if Nat.ltb i (mx_major a) then mval a i j else mval b (i - mx_major a)%nat j.
Proof. exact concat_ok. Qed.
Print Assumptions C34_matrix_concatenate.
Theorem C34_matrix_remove_major : forall a rm, mwf a -> sorted_rows (mx_major a) rm ->
  exists b, mx_remove_major a rm = Ok b /\ mwf b /\ mx_major b = (mx_major a - length rm)%nat /\ mx_minor b = mx_minor a /\
    forall i j, (i < mx_major b)%nat -> mval b i j = mval a (nth i (kept (mx_major a) rm) 0%nat) j.
Proof. exact remove_major_ok. Qed.
Print Assumptions C34_matrix_remove_major.
Theorem C34_matrix_remove_minor : forall a rm, mwf a -> sorted_rows (mx_minor a) rm ->
  exists b, mx_remove_minor a rm = Ok b /\ mwf b /\ mx_major b = mx_major a /\ mx_minor b = (mx_minor a - length rm)%nat /\
    forall i j, (j < mx_minor b)%nat -> mval b i j = mval a i (nth j (kept (mx_minor a) rm) 0%nat).
Proof. exact remove_minor_ok. Qed.
Print Assumptions C34_matrix_remove_minor.
Theorem C34_matrix_set : forall a i j v, mwf a -> (i < mx_major a)%nat -> (j < mx_minor a)%nat -> v <> 0 ->
  exists b, mx_set a i j v = Ok b /\ mwf b /\ mx_major b = mx_major a /\ mx_minor b = mx_minor a /\
    forall i' j', mval b i' j' = if Nat.eqb i' i && Nat.eqb j' j then v else mval a i' j'.
Proof. exact set_ok. Qed.
Print Assumptions C34_matrix_set.
(** the number of nonzero entries *)
Theorem C34_matrix_size : forall a, mwf a ->
  mx_size a = length (filter (fun '(i, j) => negb (qzero (mval a i j))) (list_prod (seq 0 (mx_major a)) (seq 0 (mx_minor a)))).
Proof. exact size_ok. Qed.
Print Assumptions C34_matrix_size.
Theorem C34_matrix_identity : forall n, mwf (mx_identity n) /\ mx_major (mx_identity n) = n /\ mx_minor (mx_identity n) = n /\
  forall i j, (i < n)%nat -> mval (mx_identity n) i j = if Nat.eqb i j then 1 else 0.
Proof. exact identity_ok. Qed.
Print Assumptions C34_matrix_identity.
Theorem C34_matrix_rows_from_values : forall rows n, (forall r, In r rows -> length r = n) ->
  mwf (mx_rows_dense rows n) /\ mx_major (mx_rows_dense rows n) = length rows /\ mx_minor (mx_rows_dense rows n) = n /\
  forall i j, mval (mx_rows_dense rows n) i j = nthq (nth i rows []) j.
Proof. exact rows_dense_ok. Qed.
Print Assumptions C34_matrix_rows_from_values.
Theorem C34_matrix_columns_from_values : forall rows n, (forall r, In r rows -> length r = n) ->
  exists a, mx_columns_dense rows n = Ok a /\ mwf a /\ mx_major a = n /\ mx_minor a = length rows /\
    forall i j, mval a j i = nthq (nth i rows []) j.
Proof. exact columns_dense_ok. Qed.
Print Assumptions C34_matrix_columns_from_values.
Theorem C34_matrix_change_row_signs : forall rows a, mwf a ->
  mwf (mx_change_row_signs rows a) /\ mx_major (mx_change_row_signs rows a) = mx_major a /\ mx_minor (mx_change_row_signs rows a) = mx_minor a /\
  forall j i, mval (mx_change_row_signs rows a) j i = if memb i rows then - mval a j i else mval a j i.
Proof. exact signs_ok. Qed.
Print Assumptions C34_matrix_change_row_signs.
Example C34_matrix_case : mwf ex_matrix /\ mx_major ex_matrix = 2%nat /\ mx_minor ex_matrix = 3%nat /\ mx_size ex_matrix = 4%nat /\ sorted_rows 3 [0; 1]%nat.
Proof. exact ex_matrix_ok. Qed.
(** ** C35: filtered providers *)
(** row [i] of the filtered problem is row [kept n rm][i] of the original; the search terminates and does not panic *)
Theorem C35_underlying_index : forall n rm i, increasing_from 0 rm -> (forall r, In r rm -> (r < n)%nat) -> (i < n - length rm)%nat ->
  underlying_index rm i = Ok (nth i (kept n rm) 0%nat).
Proof. exact underlying_spec. Qed.
Print Assumptions C35_underlying_index.
(** release build: deleting row [i] of what remains *)
Theorem C35_delete_row : forall n rm i, increasing_from 0 rm -> (forall r, In r rm -> (r < n)%nat) -> (i < n - length rm)%nat ->
  exists rm', delete_row false rm i = Ok rm' /\ increasing_from 0 rm' /\ (forall r, In r rm' -> (r < n)%nat) /\
    kept n rm' = remove_at (kept n rm) i /\ length rm' = S (length rm).
Proof. exact delete_row_spec. Qed.
Print Assumptions C35_delete_row.
(** debug build: the debug assertion is the negation of what is needed, every call panics *)
Theorem C35_delete_row_debug_refuted : forall n rm i, increasing_from 0 rm -> (forall r, In r rm -> (r < n)%nat) -> (i < n - length rm)%nat ->
  delete_row true rm i = Panic.
Proof. exact delete_row_debug. Qed.
Print Assumptions C35_delete_row_debug_refuted.
Theorem C35_right_hand_side : forall p rm i, (forall r, In r rm -> (r < p_rows p)%nat) -> NoDup rm -> length (p_rhs p) = p_rows p ->
  (i < p_rows p - length rm)%nat -> nthq (p_rhs (remove_rows p rm)) i = nthq (p_rhs p) (nth i (kept (p_rows p) rm) 0%nat).
Proof. exact filtered_rhs. Qed.
Print Assumptions C35_right_hand_side.
(** for a column type that filters correctly *)
Theorem C35_columns : forall p rm j i, (forall r, In r rm -> (r < p_rows p)%nat) -> NoDup rm -> wfs (p_rows p) (p_col p j) ->
  p_filtered p rm j = sremove (p_col p j) rm -> (i < p_rows p - length rm)%nat ->
  den (p_col (remove_rows p rm) j) i = den (p_col p j) (nth i (kept (p_rows p) rm) 0%nat).
Proof. exact filtered_col. Qed.
Print Assumptions C35_columns.
(** the columns of `MatrixData` filter correctly when equality rows are removed, which is what the solver does *)
Theorem C35_matrix_data_columns : forall d rm j i, wfs (p_rows (md_provider d)) (p_col (md_provider d) j) -> NoDup rm ->
  (forall r, In r rm -> (r < eq_end d)%nat) -> (forall r, In r rm -> (r < p_rows (md_provider d))%nat) ->
  (i < p_rows (md_provider d) - length rm)%nat ->
  den (p_col (remove_rows (md_provider d) rm) j) i = den (p_col (md_provider d) j) (nth i (kept (p_rows (md_provider d)) rm) 0%nat).
Proof. exact md_filtered_col. Qed.
Print Assumptions C35_matrix_data_columns.
(** they do not when the row of an inequality constraint is removed *)
Theorem C35_matrix_data_inequality_refuted : exists d rm j i, (forall r, In r rm -> (r < md_nr_constraints d)%nat) /\ increasing_from 0 rm /\
  (j < p_cols (md_provider d))%nat /\ (i < p_rows (md_provider d) - length rm)%nat /\
  den (p_col (remove_rows (md_provider d) rm) j) i <> den (p_col (md_provider d) j) (nth i (kept (p_rows (md_provider d)) rm) 0%nat).
Proof. exact md_filter_wrong. Qed.
Print Assumptions C35_matrix_data_inequality_refuted.
Theorem C35_pivots_complete : forall pivots rm n r j, NoDup rm -> (forall x, In x rm -> (x < n)%nat) -> (r < n - length rm)%nat ->
  (forall r j, In (r, j) pivots -> (r < n)%nat) ->
  (In (r, j) (filtered_pivots pivots rm) <-> In (nth r (kept n rm) 0%nat, j) pivots).
Proof. exact filtered_pivots_In. Qed.
Print Assumptions C35_pivots_complete.
Theorem C35_pivots_sorted : forall rm, NoDup rm -> forall pivots lo, increasing_from lo (map fst pivots) ->
  increasing_from (pos rm lo) (map fst (filtered_pivots pivots rm)).
Proof. exact filtered_pivots_sorted. Qed.
Print Assumptions C35_pivots_sorted.
Theorem C35_pivots_are_unit_columns : forall p rm r j, NoDup rm -> (forall x, In x rm -> (x < p_rows p)%nat) ->
  (forall r j, In (r, j) (match p_init p with PartialInit l => l | _ => [] end) -> (r < p_rows p)%nat /\ p_col p j = sbasis r /\
     p_filtered p rm j = sremove (p_col p j) rm) ->
  In (r, j) (filtered_pivots (match p_init p with PartialInit l => l | _ => [] end) rm) ->
  (r < p_rows p - length rm)%nat /\ p_col (remove_rows p rm) j = sbasis r.
Proof. exact filtered_pivots_unit. Qed.
Print Assumptions C35_pivots_are_unit_columns.
(** bound rows come after the [m] constraint rows *)
Theorem C35_bound_rows : forall n m rm r, NoDup rm -> (forall x, In x rm -> (x < m)%nat) -> (m <= r < n)%nat ->
  exists r', filtered_bound_row rm (Some r) = Ok (Some r') /\ (r' < n - length rm)%nat /\ nth r' (kept n rm) 0%nat = r.
Proof. exact filtered_bound. Qed.
Print Assumptions C35_bound_rows.
Theorem C35_counts : forall constraints bounds rm, (length rm <= constraints)%nat ->
  filtered_constraints constraints rm = Ok (constraints - length rm)%nat /\
  filtered_rows constraints bounds rm = Ok ((constraints - length rm) + bounds)%nat.
Proof. exact filtered_counts. Qed.
Print Assumptions C35_counts.
Example C35_case : increasing_from 0 [1; 4; 5]%nat /\ (forall r, In r [1; 4; 5]%nat -> (r < 8)%nat) /\
  map (underlying_index [1; 4; 5]%nat) [0; 1; 2; 3; 4]%nat = map Ok [0; 2; 3; 6; 7]%nat /\
  delete_row false [1; 4; 5]%nat 3 = Ok [1; 4; 5; 6]%nat /\ filtered_pivots [(0, 3); (4, 1); (7, 2)]%nat [1; 4; 5]%nat = [(0, 3); (4, 2)]%nat.
Proof. exact ex_filter. Qed.
(** ** C36: incidence matrices *)
(** [arcs adjacency] lists the arcs (tail, head, value) column by column; [incidence_entry from to i] is
    -1 at the tail, 1 at the head and 0 elsewhere *)
Theorem C36_incidence_matrix : forall adjacency removed,
  (forall f, (f < length adjacency)%nat -> wfs (length adjacency) (nth f adjacency [])) ->
  (forall f v, In (f, v) (nth f adjacency []) -> False) ->
  NoDup removed -> (forall r, In r removed -> (r < length adjacency)%nat) ->
  exists im values, incidence_new adjacency removed = Ok (im, values) /\
    im_rows im = (length adjacency - length removed)%nat /\ im_vertices im = length adjacency /\
    im_edges im = length (arcs adjacency) /\ values = map snd (arcs adjacency) /\
    forall k f t v, nth_error (arcs adjacency) k = Some (f, t, v) ->
      wfs (im_rows im) (arc_entries (im_column im k)) /\
      forall i, (i < im_rows im)%nat ->
        den (arc_entries (im_column im k)) i = incidence_entry f t (nth i (kept (length adjacency) removed) 0%nat).
Proof. exact incidence_spec. Qed.
Print Assumptions C36_incidence_matrix.
Theorem C36_arcs : forall adjacency f t v, In (f, t, v) (arcs adjacency) <-> (f < length adjacency)%nat /\ In (t, v) (nth f adjacency []).
Proof. exact arcs_In. Qed.
Print Assumptions C36_arcs.
Theorem C36_entry : forall f t i, f <> t -> incidence_entry f t i = if Nat.eqb i f then - (1) else if Nat.eqb i t then 1 else 0.
Proof. exact entry_values. Qed.
Print Assumptions C36_entry.
(** the operators on a number and a direction compute with -1 and 1 *)
Theorem C36_direction_arithmetic : forall x d, dir_add x d = x + arc_value d /\ dir_sub x d = x - arc_value d /\
  dir_mul x d = x * arc_value d /\ dir_div x d = x / arc_value d.
Proof. exact dir_arithmetic. Qed.
Print Assumptions C36_direction_arithmetic.
Theorem C36_filter : forall c rm, arc_entries (arc_filtered c rm) = sremove (arc_entries c) rm.
Proof. exact arc_filter_spec. Qed.
Print Assumptions C36_filter.
Example C36_case : (forall f, (f < length ex_graph)%nat -> wfs (length ex_graph) (nth f ex_graph [])) /\
  (forall f v, In (f, v) (nth f ex_graph []) -> False) /\ NoDup [3; 0]%nat /\ (forall r, In r [3; 0]%nat -> (r < length ex_graph)%nat) /\
  arcs ex_graph = [(0%nat, 1%nat, zq 1); (0%nat, 2%nat, zq 2); (1%nat, 2%nat, zq 2); (1%nat, 3%nat, zq 3); (2%nat, 3%nat, zq 1)] /\
  option_map (fun '(im, _) => im_cols im) (match incidence_new ex_graph [3; 0]%nat with Ok x => Some x | _ => None end) =
    Some [[(0%nat, Incoming)]; [(1%nat, Incoming)]; [(0%nat, Outgoing); (1%nat, Incoming)]; [(0%nat, Outgoing)]; [(1%nat, Outgoing)]].
Proof. exact ex_graph_ok. Qed.
