(** * Programs between two others: the specification side *)
From Verif Require Export SpecPair.
Local Open Scope Qc_scope.

(** the part [t] of the way from [a] to [b] *)
Definition mix (t a b : Qc) : Qc := (1 - t) * a + t * b.

(** [f] has right-hand sides between those of [f0] and [f1]; all else is the same in the three *)
Record between_rhs (t : Qc) (f0 f1 f : file) : Prop := mk_between_rhs {
  br_other0 : other_rhs f f0;
  br_other1 : other_rhs f f1;
  br_rhs : forall r b0 b1, is_constraint f r -> frhs f0 r b0 -> frhs f1 r b1 -> frhs f r (mix t b0 b1)
}.
(** [f0] differs from [f] only in its costs *)
Record other_costs (f f0 : file) : Prop := mk_other_costs {
  oc_sense : fsense f0 = fsense f;
  oc_rows : f_rows f0 = f_rows f;
  oc_columns : column_names_of f0 = column_names_of f;
  oc_coefficients : forall c r, is_constraint f r -> frow_value f0 (only c) r = frow_value f (only c) r;
  oc_rhs : f_rhs f0 = f_rhs f;
  oc_ranges : f_ranges f0 = f_ranges f;
  oc_bounds : f_bounds f0 = f_bounds f
}.
(** [f] has costs between those of [f0] and [f1]; all else is the same in the three *)
Record between_costs (t : Qc) (f0 f1 f : file) : Prop := mk_between_costs {
  bc_other0 : other_costs f f0;
  bc_other1 : other_costs f f1;
  bc_costs : forall c, In c (column_names_of f) -> fcost f (only c) = mix t (fcost f0 (only c)) (fcost f1 (only c))
}.
(** the outcome between two outcomes *)
Definition mixed (t : Qc) (o0 o1 : outcome) : outcome :=
  match o0, o1 with
  | Infeasible, _ | _, Infeasible => Infeasible
  | Unbounded, _ | _, Unbounded => Unbounded
  | Value v0, Value v1 => Value (mix t v0 v1)
  end.
