(** * Matrix providers, tableau kinds, basis inverse representations: the model's interfaces

    Models the traits `MatrixProvider` (/repo/src/algorithm/two_phase/matrix_provider/mod.rs:22-130),
    `PartialInitialBasis` / `FullInitialBasis` (/repo/src/algorithm/two_phase/phase_one.rs:66-117),
    `IntoFilteredColumn` (matrix_provider/filter/generic_wrapper.rs:28-45), `Kind`
    (tableau/kind/mod.rs:1-60) and `BasisInverse`, `RemoveBasisPart` (carry/mod.rs:60-180). *)
From Verif Require Export Sparse.

(** Which of the initial basis traits a provider implements, with the value of
    `pivot_element_indices` (phase_one.rs:66-80). *)
Inductive init_basis :=
| NoInit
| PartialInit (pivots : list (nat * nat))
| FullInit (pivots : list (nat * nat)).

(** matrix_provider/mod.rs:22-130.  [p_col j] is the sequence of (row, value) tuples which
    `column(j).iter()` yields; [p_filtered rm j] what `column(j).into_filtered(rm).iter()` yields. *)
Record provider := mk_provider {
  p_rows : nat;
  p_cols : nat;
  p_col : nat -> svec;
  p_cost : nat -> Qc;
  p_rhs : list Qc;
  p_init : init_basis;
  p_filtered : list nat -> nat -> svec
}.

(** tableau/kind/mod.rs:14-57 and artificial/mod.rs:27-57.  [k_art] is
    `nr_artificial_variables`, 0 for the kind NonArtificial; it is also the value of `start_index`
    (strategy/pivot_rule.rs:57-80). *)
Record kind := mk_kind {
  k_rows : nat;
  k_cols : nat;
  k_col : nat -> svec;
  k_cost : nat -> Qc;
  k_art : nat
}.

(** tableau/kind/artificial/fully.rs:22-69 *)
Definition fully (p : provider) : kind :=
  mk_kind (p_rows p) (p_rows p + p_cols p)
    (fun j => if Nat.ltb j (p_rows p) then sbasis j else p_col p (j - p_rows p))
    (fun j => if Nat.ltb j (p_rows p) then 1 else 0)
    (p_rows p).

(** tableau/kind/artificial/partially.rs:36-103; [c2r] is `column_to_row`. *)
Definition partially (p : provider) (c2r : list nat) : kind :=
  mk_kind (p_rows p) (length c2r + p_cols p)
    (fun j => if Nat.ltb j (length c2r) then sbasis (nth j c2r 0%nat)
              else p_col p (j - length c2r))
    (fun j => if Nat.ltb j (length c2r) then 1 else 0)
    (length c2r).

(** tableau/kind/non_artificial.rs:25-71 *)
Definition non_artificial (p : provider) : kind :=
  mk_kind (p_rows p) (p_cols p) (p_col p) (p_cost p) 0.

(** matrix_provider/filter/generic_wrapper.rs:223-275: `RemoveRows` as a provider.  The number of
    rows removed never exceeds the number of rows in the model's uses, so the truncated subtraction
    equals Rust's.  `pivot_element_indices` of the wrapper (generic_wrapper.rs:285-300) is not used by
    the solver and modelled separately in Filter.v. *)
Definition remove_rows (p : provider) (rm : list nat) : provider :=
  mk_provider (p_rows p - length rm) (p_cols p) (p_filtered p rm) (p_cost p)
    (remove_indices (p_rhs p) rm) NoInit (fun rm' j => sremove (p_filtered p rm j) rm').

(** carry/mod.rs:60-180: `trait BasisInverse` and, as an option, `RemoveBasisPart`.  [cci] is the
    associated type `ColumnComputationInfo`, [cci_col] its method `column`/`into_column`. *)
Record BIOps := mk_bi {
  bi : Type;
  cci : Type;
  cci_col : cci -> svec;
  bi_identity : nat -> res bi;
  bi_invert : list svec -> res bi;
  bi_change : bi -> nat -> cci -> res (bi * svec);
  bi_left : bi -> svec -> res cci;
  bi_right : bi -> svec -> res svec;
  bi_elem : bi -> nat -> svec -> res (option Qc);
  bi_refactor : bi -> bool;
  bi_row : bi -> nat -> res svec;
  bi_remove : option (bi -> list nat -> res bi)
}.
