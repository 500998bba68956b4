(** * Filtered providers: model of
    /repo/src/algorithm/two_phase/matrix_provider/filter/generic_wrapper.rs

    [rm] is the field `rows_to_skip`, sorted and free of duplicates. *)
From Verif Require Export Provider.

(** generic_wrapper.rs:190-197: the loop of the binary search.  [rm[middle] - middle] is an unsigned
    subtraction: it panics (debug build) or wraps when it would be negative. *)
Fixpoint search_loop (fuel : nat) (rm : list nat) (i lower upper : nat) : res nat :=
  if Nat.eqb (upper - lower) 1 then Ok upper else
  match fuel with
  | 0%nat => Fuel
  | S fuel' =>
      let middle := ((lower + upper) / 2)%nat in
      let* x := index rm middle in
      if Nat.ltb x middle then Panic else
      if Nat.leb (x - middle) i then search_loop fuel' rm i middle upper
      else search_loop fuel' rm i lower middle
  end.
(** generic_wrapper.rs:173-205 `get_underlying_index`; 134-138 `get_underlying_row_index` *)
Definition underlying_index (rm : list nat) (i : nat) : res nat :=
  match rm with
  | [] => Ok i
  | [r] => Ok (if Nat.ltb i r then i else (i + 1)%nat)
  | r :: _ =>
      if Nat.ltb i r then Ok i
      else let* upper := search_loop (length rm) rm i 0 (length rm) in Ok (i + upper)%nat
  end.

(** `binary_search` of the standard library on a sorted slice: found, or the place of insertion *)
Fixpoint nsearch (x : nat) (l : list nat) : bool * nat :=
  match l with
  | [] => (false, 0%nat)
  | y :: t => if Nat.ltb y x then let (b, k) := nsearch x t in (b, S k) else (Nat.eqb y x, 0%nat)
  end.
(** generic_wrapper.rs:146-156 `delete_row`; 212-221 `delete_index` is the same.  [debug] tells whether
    debug assertions (149: the row is in the list of removed rows) are compiled in. *)
Definition delete_row (debug : bool) (rm : list nat) (i : nat) : res (list nat) :=
  let* r := underlying_index rm i in
  if debug && negb (memb r rm) then Panic else
  match nsearch r rm with
  | (true, _) => Panic
  | (false, k) => Ok (insert_at rm k r)
  end.

(** generic_wrapper.rs:223-275 `RemoveRows` as a `MatrixProvider` of a provider with [constraints]
    constraint rows, [bounds] variable bound rows and bound rows [row_of]. *)
Definition filtered_constraints (constraints : nat) (rm : list nat) : res nat :=
  if Nat.ltb constraints (length rm) then Panic else Ok (constraints - length rm)%nat.
Definition filtered_rows (constraints bounds : nat) (rm : list nat) : res nat :=
  if Nat.ltb (constraints + bounds) (length rm) then Panic else Ok (constraints + bounds - length rm)%nat.
(** generic_wrapper.rs:250-256 `bound_row_index` *)
Definition filtered_bound_row (rm : list nat) (row : option nat) : res (option nat) :=
  match row with
  | None => Ok None
  | Some r => if Nat.ltb r (length rm) then Panic else Ok (Some (r - length rm)%nat)
  end.
(** generic_wrapper.rs:290-294 `pivot_element_indices`, with index_utils::remove_sparse_indices on the
    (row, column) tuples *)
Definition filtered_pivots (pivots : list (nat * nat)) (rm : list nat) : list (nat * nat) :=
  map (fun '(r, j) => ((r - count_below r rm)%nat, j)) (filter (fun '(r, _) => negb (memb r rm)) pivots).
