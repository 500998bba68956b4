(** * Other units of a variable, constraints that say nothing new, and programs with one optimum (C54) *)
From Verif Require Export SpecOrder.
Local Open Scope Qc_scope.

(** all optima of the program give the columns the same values *)
Definition only_optimum (f : file) : Prop := forall x y, foptimal f x -> foptimal f y -> forall c, In c (names_of_columns f) -> x c = y c.

(** the column [col] is measured in units that are [k] times as large: its coefficients are multiplied by [k] and its
    bounds are divided by [k].  A bound of type BV says that a variable is between 0 and 1 and can't be divided *)
Definition scale_bound (k : Qc) (t : bound_type) : bound_type :=
  match t with
  | LowerContinuous v => LowerContinuous (v / k) | LowerInteger v => LowerInteger (v / k)
  | UpperContinuous v => UpperContinuous (v / k) | UpperInteger v => UpperInteger (v / k)
  | Fixed v => Fixed (v / k) | SemiContinuous l u => SemiContinuous (l / k) (u / k)
  | Free => Free | LowerMinusInfinity => LowerMinusInfinity | UpperInfinity => UpperInfinity | Binary => Binary
  end.
Definition scale_column (k : Qc) (col : string) (f : file) : file := {|
  f_name := f_name f; f_sense := f_sense f; f_rows := f_rows f;
  f_columns := map (fun item => match item with Entries c values => Entries c (if String.eqb c col then map (fun '(r, v) => (r, k * v)) values else values) | item => item end) (f_columns f);
  f_rhs := f_rhs f; f_ranges := f_ranges f;
  f_bounds := map (fun '(t, g, c) => (if String.eqb c col then scale_bound k t else t, g, c)) (f_bounds f) |}.
(** values in the new units *)
Definition in_units (k : Qc) (col : string) (x : valuation) : valuation := fun c => if String.eqb c col then x c / k else x c.

(** ** Another variable instead of one *)
(** the coefficient of a column in a row *)
Definition coefficient_of (f : file) (r c : string) : Qc := total (map (fun '(c', r', v) => if String.eqb r' r then if String.eqb c' c then v else 0 else 0) (coefficients f)).
(** [f'] is [f] with [k * col + t] instead of the column [col]: its coefficients are multiplied by [k], what [t] adds to
    a row is subtracted from the right-hand side, and the bounds of [col] in [f'] say what those in [f] say about
    [k * col + t] *)
Record substituted (k t : Qc) (col : string) (f f' : file) : Prop := mk_substituted {
  sb_sense : fsense f' = fsense f;
  sb_rows : f_rows f' = f_rows f;
  sb_coefficients : coefficients f' = map (fun '(c, r, v) => (c, r, if String.eqb c col then k * v else v)) (coefficients f);
  sb_columns : forall c, In c (names_of_columns f') <-> In c (names_of_columns f);
  sb_rhs : forall kind r b, In (Some kind, r) (f_rows f) -> frhs f' r (b - coefficient_of f r col * t) <-> frhs f r b;
  sb_ranges : forall r v, frange f' r v <-> frange f r v;
  sb_allowed : forall c v, In c (names_of_columns f) -> fallowed f' c v <-> fallowed f c (if String.eqb c col then k * v + t else v)
}.
Definition shifted (s : Qc) (o : outcome) : outcome := match o with Value v => Value (v - s) | o => o end.
