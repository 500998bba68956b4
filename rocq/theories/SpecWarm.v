(** * What a feasible basis is: the specification side *)
From Verif Require Export Spec.
Local Open Scope Qc_scope.

(** what the solver is told about a problem has the right sizes: one right-hand side per row, columns are sorted
    lists of nonzero values in the range of the rows *)
Record well_sized (p : provider) : Prop := mk_sized {
  ws_len : length (p_rhs p) = p_rows p;
  ws_cols : forall j, (j < p_cols p)%nat -> wfs (p_rows p) (p_col p j)
}.
(** the columns of the matrix that are chosen, as a square matrix *)
Definition chosen (p : provider) (basis : list nat) : mat := fun i r => den (p_col p (nth r basis 0%nat)) i.
(** a basis: as many columns as rows, and their matrix has an inverse [N] *)
Definition basis_of (p : provider) (basis : list nat) (N : mat) : Prop :=
  length basis = p_rows p /\ (forall j, In j basis -> (j < p_cols p)%nat) /\ is_inverse (p_rows p) N (chosen p basis).
(** it is feasible when the values of its variables, with all others zero, are not negative *)
Definition feasible_basis (p : provider) (basis : list nat) : Prop :=
  exists N, basis_of p basis N /\
    forall r, (r < p_rows p)%nat -> 0 <= sum (p_rows p) (fun i => N r i * nthq (p_rhs p) i).
(** columns of which no combination other than the trivial one is zero *)
Definition independent_columns (p : provider) (basis : list nat) : Prop :=
  forall c : vec, (forall i, (i < p_rows p)%nat -> sum (length basis) (fun r => chosen p basis i r * c r) = 0) ->
    forall r, (r < length basis)%nat -> c r = 0.
