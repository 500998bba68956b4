(** * Two programs in one file (C64) *)
From Verif Require Export SpecUnits.
Local Open Scope Qc_scope.

(** [f] says what [f1] and [f2] say, which have no constraint and no column in common: the costs are added.  The order of
    what is said, the names of groups and the integer columns do not matter *)
Record beside (f1 f2 f : file) : Prop := mk_beside {
  bs_sense1 : fsense f1 = fsense f;
  bs_sense2 : fsense f2 = fsense f;
  bs_cost1 : cost_row f1 = cost_row f;
  bs_cost2 : cost_row f2 = cost_row f;
  bs_rows_differ : forall k1 k2 r, In (Some k1, r) (f_rows f1) -> ~ In (Some k2, r) (f_rows f2);
  bs_columns_differ : forall c, In c (names_of_columns f1) -> ~ In c (names_of_columns f2);
  bs_rows : forall k r, In (Some k, r) (f_rows f) <-> In (Some k, r) (f_rows f1) \/ In (Some k, r) (f_rows f2);
  bs_columns : forall c, In c (names_of_columns f) <-> In c (names_of_columns f1) \/ In c (names_of_columns f2);
  bs_coefficients : Permutation (coefficients f1 ++ coefficients f2) (coefficients f);
  bs_rhs : forall r b, (exists g, In (g, r, b) (vector_values (f_rhs f))) <->
    (exists g, In (g, r, b) (vector_values (f_rhs f1))) \/ (exists g, In (g, r, b) (vector_values (f_rhs f2)));
  bs_ranges : forall r v, frange f r v <-> frange f1 r v \/ frange f2 r v;
  bs_bounds : forall t c, (exists g, In (t, g, c) (f_bounds f)) <-> (exists g, In (t, g, c) (f_bounds f1)) \/ (exists g, In (t, g, c) (f_bounds f2))
}.
(** the outcome for two programs together *)
Definition together (o1 o2 : outcome) : outcome :=
  match o1, o2 with
  | Infeasible, _ | _, Infeasible => Infeasible
  | Unbounded, _ | _, Unbounded => Unbounded
  | Value v1, Value v2 => Value (v1 + v2)
  end.
