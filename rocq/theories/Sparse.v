(** * Sparse vectors: model of /repo/src/data/linear_algebra/vector/sparse.rs

    The type `Sparse<F, C>` (sparse.rs:25-33) is a list of (index, value) tuples sorted by index
    plus a length.  The solver never branches on the stored length in a release build (it occurs in
    `debug_assert!` only), so the vectors used inside the solver are modelled by the list alone;
    the record [sparse] below adds the length back for the methods where it is observable. *)
From Verif Require Export Base.

Notation svec := (list (nat * Qc)).

(** sparse.rs:35-39 `get_data_index`: `binary_search_by_key` on the index.  Simplification: the
    search of the standard library is replaced by a linear scan with the same documented result
    (position of the match, or the insertion point) on lists sorted by index. *)
Fixpoint bsearch {A} (k : nat) (l : list (nat * A)) : bool * nat :=
  match l with
  | [] => (false, 0%nat)
  | (j, _) :: t =>
      if Nat.ltb j k then let (b, i) := bsearch k t in (b, S i) else (Nat.eqb j k, 0%nat)
  end.

(** sparse.rs:138-147 `get` *)
Definition sget (l : svec) (i : nat) : option Qc :=
  match bsearch i l with
  | (true, k) => option_map snd (nth_error l k)
  | (false, _) => None
  end.

(** sparse.rs:42-47 `set_zero` *)
Definition set_zero (l : svec) (i : nat) : svec :=
  match bsearch i l with
  | (true, k) => remove_at l k
  | (false, _) => l
  end.

(** sparse.rs:128-136 `set` *)
Definition sset (l : svec) (i : nat) (v : Qc) : svec :=
  match bsearch i l with
  | (true, k) => upd l k (i, v)
  | (false, k) => insert_at l k (i, v)
  end.

(** sparse.rs:300-320 `shift_value` *)
Definition shift_value (l : svec) (i : nat) (v : Qc) : svec :=
  if qzero v then l else
  match bsearch i l with
  | (true, k) =>
      match nth_error l k with
      | Some (_, old) => if qeqb old (- v) then set_zero l i else upd l k (i, old + v)
      | None => l
      end
  | (false, k) => insert_at l k (i, v)
  end.

(** sparse.rs:105-112 `sparse_inner_product`, which calls `inner_product_slice_iter` of the external
    crate index_utils: one simultaneous pass over two sorted lists. *)
Fixpoint sdot (a b : svec) {struct a} : Qc :=
  match a with
  | [] => 0
  | (i, x) :: a' =>
      (fix go (b : svec) : Qc :=
         match b with
         | [] => 0
         | (j, y) :: b' =>
             if Nat.ltb j i then go b'
             else if Nat.eqb j i then x * y + sdot a' b'
             else sdot a' b
         end) b
  end.

(** sparse.rs:233-241 `standard_basis_vector` *)
Definition sbasis (i : nat) : svec := [(i, 1)].

(** sparse.rs:258-291 `add_multiple_of_row` *)
Fixpoint add_mult (mult : Qc) (a b : svec) {struct a} : svec :=
  match a with
  | [] => map (fun '(j, v) => (j, v * mult)) b
  | (i, x) :: a' =>
      (fix go (b : svec) : svec :=
         match b with
         | [] => (i, x) :: add_mult mult a' []
         | (j, y) :: b' =>
             if Nat.ltb j i then (j, y * mult) :: go b'
             else if Nat.eqb j i then
               (if qzero (x + y * mult) then add_mult mult a' b'
                else (i, x + y * mult) :: add_mult mult a' b')
             else (i, x) :: add_mult mult a' b
         end) b
  end.

(** sparse.rs:323-333 `element_wise_multiply` and 335-345 `element_wise_divide` *)
Definition smul (l : svec) (c : Qc) : svec := map (fun '(i, v) => (i, v * c)) l.
Definition sdiv (l : svec) (c : Qc) : svec := map (fun '(i, v) => (i, v / c)) l.

(** sparse.rs:380-384 `squared_norm` *)
Definition sqnorm (l : svec) : Qc := fold_right (fun '(_, v) acc => v * v + acc) 0 l.

(** sparse.rs:362-373 `inner_product_with_dense`; dense.rs:101-112 `sparse_inner_product`.  An index
    outside the dense vector panics in the code; here it reads 0, and every use in the model has its
    indices in range (part of the well-formedness of columns). *)
Definition ddot (d : list Qc) (l : svec) : Qc :=
  fold_right (fun '(i, v) acc => nthq d i * v + acc) 0 l.

(** sparse.rs:184-198 `from_iter` *)
Fixpoint sfrom_from (k : nat) (l : list Qc) : svec :=
  match l with
  | [] => []
  | v :: t => if qzero v then sfrom_from (S k) t else (k, v) :: sfrom_from (S k) t
  end.
Definition sfrom (l : list Qc) : svec := sfrom_from 0 l.

(** index_utils::remove_sparse_indices (external crate), used by sparse.rs:149-158
    `remove_indices`: entries at removed indices disappear, later indices move down. *)
Definition count_below (i : nat) (rm : list nat) : nat := length (filter (fun r => Nat.ltb r i) rm).
Definition sremove (l : svec) (rm : list nat) : svec :=
  map (fun '(i, v) => ((i - count_below i rm)%nat, v)) (filter (fun '(i, _) => negb (memb i rm)) l).

(** ** Denotation: the mathematical vector a sparse vector stands for. *)
Fixpoint den (l : svec) (i : nat) : Qc :=
  match l with
  | [] => 0
  | (j, v) :: t => (if Nat.eqb i j then v else 0) + den t i
  end.

(** Representation invariant: indices strictly increasing from [lo], below [m], values non-zero.
    These are the `debug_assert!`s of sparse.rs:90-96. *)
Fixpoint fwf (lo m : nat) (l : svec) : Prop :=
  match l with
  | [] => True
  | (i, v) :: t => (lo <= i < m)%nat /\ v <> 0 /\ fwf (S i) m t
  end.
Definition wfs (m : nat) (l : svec) : Prop := fwf 0 m l.

(** The full struct, with its length (sparse.rs:25-33). *)
Record sparse := mk_sparse { sp_data : svec; sp_len : nat }.
(** sparse.rs:49-52 `extend` *)
Definition sp_extend (v : sparse) (k : nat) : sparse := mk_sparse (sp_data v) (sp_len v + k).
(** sparse.rs:114-119 `push_value` *)
Definition sp_push (v : sparse) (x : Qc) : sparse :=
  mk_sparse (sp_data v ++ [(sp_len v, x)]) (S (sp_len v)).
(** sparse.rs:149-158 `remove_indices` *)
Definition sp_remove (v : sparse) (rm : list nat) : sparse :=
  mk_sparse (sremove (sp_data v) rm) (sp_len v - length rm).
