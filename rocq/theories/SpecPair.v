(** * What a program and its dual ask: the specification side

    Nothing here refers to the code.  The dual of
      minimize c x  subject to  A x >= b, x >= 0
    is
      maximize b y  subject to  A^T y <= c, y >= 0,
    with other signs for rows and variables of other kinds.  It is written here for files: the columns of one file
    have the names of the constraints of the other. *)
From Verif Require Export SpecOrder SpecFDual.
Local Open Scope Qc_scope.

(** one unit of [n] and nothing of the others *)
Definition only (n : string) : valuation := fun c => if String.eqb c n then 1 else 0.
Definition is_constraint (f : file) (r : string) : Prop := exists k, In (Some k, r) (f_rows f).
(** the price of a row of kind [k], in a minimization: asking for more is not cheaper, allowing more is not dearer *)
Definition price_allowed (k : relation_kind) (y : Qc) : Prop := match k with KGreater => 0 <= y | KLess => y <= 0 | KEqual => True end.
(** the value of a variable that has a row of kind [k] in the dual: the worth of a unit is at most its cost for a
    variable that may grow, at least that for one that may shrink *)
Definition amount_allowed (k : relation_kind) (x : Qc) : Prop := match k with KLess => 0 <= x | KGreater => x <= 0 | KEqual => True end.

(** [f'] is the dual of [f] *)
Record dual (f f' : file) : Prop := mk_dual {
  du_minimize : fsense f = Minimize;
  du_maximize : fsense f' = Maximize;
  du_columns : forall r, In r (column_names_of f') <-> is_constraint f r;
  du_rows : forall c, is_constraint f' c <-> In c (column_names_of f);
  du_coefficients : forall r c, is_constraint f r -> is_constraint f' c -> frow_value f' (only r) c = frow_value f (only c) r;
  du_costs : forall c, is_constraint f' c -> frhs f' c (fcost f (only c));
  du_rhs : forall r, is_constraint f r -> frhs f r (fcost f' (only r));
  du_prices : forall k r, In (Some k, r) (f_rows f) -> forall y, fallowed f' r y <-> price_allowed k y;
  du_amounts : forall k c, In (Some k, c) (f_rows f') -> forall x, fallowed f c x <-> amount_allowed k x;
  du_no_range : forall r v, ~ frange f r v;
  du_no_range' : forall c v, ~ frange f' c v
}.

(** the outcomes that a program and its dual can have together *)
Definition dual_outcomes (o o' : outcome) : Prop :=
  match o, o' with
  | Value v, Value v' => v = v'
  | Unbounded, Infeasible | Infeasible, Unbounded | Infeasible, Infeasible => True
  | _, _ => False
  end.

(** ** Other right-hand sides *)
(** [f2] is [f] with other right-hand sides *)
Record other_rhs (f f2 : file) : Prop := mk_other_rhs {
  or_sense : fsense f2 = fsense f;
  or_rows : f_rows f2 = f_rows f;
  or_columns : f_columns f2 = f_columns f;
  or_ranges : f_ranges f2 = f_ranges f;
  or_bounds : f_bounds f2 = f_bounds f
}.
(** what the prices [y] say that going from the right-hand sides [b] to [b2] costs *)
Definition expected_change (f : file) (y b b2 : valuation) : Qc := total (map (fun r => y r * (b2 r - b r)) (constraint_names f)).
