(** * Prices of constraints: the specification side (C65) *)
From Verif Require Export SpecPair.
Local Open Scope Qc_scope.

(** what a unit of column [c] costs beyond what it is worth when a unit of row [r] has the price [y r] *)
Definition beyond (f : file) (y : valuation) (c : string) : Qc :=
  fcost f (only c) - total (map (fun r => y r * frow_value f (only c) r) (constraint_names f)).
(** [y] are prices at the values [x].  In a minimization: a row whose value may be larger has no negative price, and one
    whose value may be smaller no positive price, so a row that is not at one of its limits is free.  A column that may be larger costs at least
    what it is worth, and one that may be smaller at most that.  A maximization has the opposite signs *)
Record priced (f : file) (x y : valuation) : Prop := mk_priced {
  pr_row_up : forall k r e, In (Some k, r) (f_rows f) -> 0 < e -> frow_holds f k r (frow_value f x r + e) -> 0 <= toward (fsense f) (y r);
  pr_row_down : forall k r e, In (Some k, r) (f_rows f) -> 0 < e -> frow_holds f k r (frow_value f x r - e) -> toward (fsense f) (y r) <= 0;
  pr_column_up : forall c e, In c (column_names_of f) -> 0 < e -> fallowed f c (x c + e) -> 0 <= toward (fsense f) (beyond f y c);
  pr_column_down : forall c e, In c (column_names_of f) -> 0 < e -> fallowed f c (x c - e) -> toward (fsense f) (beyond f y c) <= 0
}.
(** [f2] is [f] with one more column [c], which need not be used *)
Record extra_column (c : string) (f f2 : file) : Prop := mk_extra_column {
  ec_sense : fsense f2 = fsense f;
  ec_rows : f_rows f2 = f_rows f;
  ec_rhs : f_rhs f2 = f_rhs f;
  ec_ranges : f_ranges f2 = f_ranges f;
  ec_new : ~ In c (column_names_of f);
  ec_columns : forall n, In n (column_names_of f2) <-> n = c \/ In n (column_names_of f);
  ec_coefficients : forall n r, In n (column_names_of f) -> frow_value f2 (only n) r = frow_value f (only n) r;
  ec_allowed : forall n v, In n (column_names_of f) -> fallowed f2 n v <-> fallowed f n v;
  ec_zero : fallowed f2 c 0;
  ec_positive : forall v, fallowed f2 c v -> 0 <= v
}.
