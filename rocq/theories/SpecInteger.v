(** * Programs with integer columns: the specification side (C68) *)
From Verif Require Export SpecCases.
Local Open Scope Qc_scope.

Definition whole_number (v : Qc) : Prop := exists z : Z, v = Q2Qc (inject_Z z).
(** columns between the markers INTORG and INTEND, or with a bound of type BV, LI or UI *)
Definition integer_column (f : file) (c : string) : Prop :=
  In (c, true) (columns_of f) \/ exists t g, In (t, g, c) (f_bounds f) /\ makes_integer t.
(** solutions that give whole numbers to these columns, and the best ones among them *)
Definition isolution (f : file) (x : valuation) : Prop := ffeasible f x /\ forall c, integer_column f c -> whole_number (x c).
Definition ioptimal (f : file) (x : valuation) : Prop := isolution f x /\ forall y, isolution f y -> better (fsense f) (fcost f x) (fcost f y).

(** programs that together keep all the integer solutions of [f], have no other solutions than [f] has, and have the same
    costs and the same integer columns *)
Record branches (f : file) (fs : list file) : Prop := mk_branches {
  bs_sense : forall g, In g fs -> fsense g = fsense f;
  bs_cost : forall g x, In g fs -> fcost g x = fcost f x;
  bs_integer : forall g c, In g fs -> integer_column g c <-> integer_column f c;
  bs_less : forall g x, In g fs -> ffeasible g x -> ffeasible f x;
  bs_cover : forall x, isolution f x -> exists g, In g fs /\ ffeasible g x
}.
(** [f] with one more statement about bounds *)
Definition with_bound (t : bound_type) (g c : string) (f : file) : file := {|
  f_name := f_name f; f_sense := f_sense f; f_rows := f_rows f; f_columns := f_columns f; f_rhs := f_rhs f; f_ranges := f_ranges f;
  f_bounds := f_bounds f ++ [(t, g, c)] |}.
(** the column [c] at most [n], and at least [n + 1] *)
Definition branch_down (n : Z) (g c : string) (f : file) : file := with_bound (UpperContinuous (Q2Qc (inject_Z n))) g c f.
Definition branch_up (n : Z) (g c : string) (f : file) : file := with_bound (LowerContinuous (Q2Qc (inject_Z (n + 1)))) g c f.
(** the statement of a lower bound does not make [c] negative by taking away the default *)
Definition keeps_lower (n : Z) (c : string) (f : file) : Prop := (0 <= n + 1)%Z \/ exists t g, In (t, g, c) (f_bounds f) /\ ~ leaves_lower t.

(** all the costs are whole numbers, and for integer columns *)
Definition whole_cost (f : file) : Prop := forall c v, In (c, cost_row f, v) (coefficients f) -> integer_column f c /\ whole_number v.
(** [z] is the best whole number that is no better than [v] *)
Definition rounded (d : direction) (v : Qc) (z : Z) : Prop :=
  match d with
  | Minimize => v <= Q2Qc (inject_Z z) /\ Q2Qc (inject_Z z) - 1 < v
  | Maximize => Q2Qc (inject_Z z) <= v /\ v < Q2Qc (inject_Z z) + 1
  end.
(** [a] is worse than [b] by at most [e] *)
Definition within_gap (d : direction) (e a b : Qc) : Prop := match d with Minimize => a <= b + e | Maximize => b - e <= a end.

(** ** Cuts *)
(** the sum of [v * x c] over the pairs in [l] *)
Definition weighed (l : list (string * Qc)) (x : valuation) : Qc := total (map (fun '(c, v) => v * x c) l).
(** [f2] is [f] with one more row [r] of type [k], with the coefficients [l] and the right-hand side [b] *)
Record with_row (k : relation_kind) (r : string) (l : list (string * Qc)) (b : Qc) (f f2 : file) : Prop := mk_with_row {
  wr_new : ~ In r (names_of_rows f);
  wr_sense : fsense f2 = fsense f;
  wr_rows : forall k' n, In (k', n) (f_rows f2) <-> (k' = Some k /\ n = r) \/ In (k', n) (f_rows f);
  wr_columns : forall c i, In (c, i) (columns_of f2) <-> In (c, i) (columns_of f);
  wr_coefficients : Permutation (map (fun '(c, v) => (c, r, v)) l ++ coefficients f) (coefficients f2);
  wr_rhs_new : frhs f2 r b;
  wr_rhs : forall n b', n <> r -> frhs f2 n b' <-> frhs f n b';
  wr_ranges : forall n w, frange f2 n w <-> frange f n w;
  wr_bounds : forall t g c, In (t, g, c) (f_bounds f2) <-> In (t, g, c) (f_bounds f)
}.
(** the solutions of [f] exceed the whole number [z], or miss it, by less than one *)
Definition rounds_to (k : relation_kind) (l : list (string * Qc)) (z : Z) (f : file) : Prop := forall x, ffeasible f x ->
  match k with KLess => weighed l x < Q2Qc (inject_Z z) + 1 | KGreater => Q2Qc (inject_Z z) - 1 < weighed l x | KEqual => False end.
