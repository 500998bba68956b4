(** * What an MPS file asks: a linear program over named variables *)
From Verif Require Export SpecParse.
Local Open Scope Qc_scope.

(** a value for every name *)
Definition valuation := string -> Qc.
Definition total (l : list Qc) : Qc := fold_right Qcplus 0 l.
(** the value of a row: the sum of its coefficients times the values of their columns *)
Definition frow_value (f : file) (x : valuation) (r : string) : Qc :=
  total (map (fun '(c, r', v) => if String.eqb r' r then v * x c else 0) (coefficients f)).
(** the right-hand side of a row is the one given for it, or zero when there is none *)
Definition frhs (f : file) (r : string) (b : Qc) : Prop :=
  (exists g, In (g, r, b) (vector_values (f_rhs f))) \/ (b = 0 /\ forall g b', ~ In (g, r, b') (vector_values (f_rhs f))).
Definition frange (f : file) (r : string) (v : Qc) : Prop := exists g, In (g, r, v) (vector_values (f_ranges f)).
Definition frow_holds (f : file) (k : relation_kind) (r : string) (v : Qc) : Prop :=
  forall b, frhs f r b -> ((forall w, ~ frange f r w) -> plain_holds k b v) /\ (forall w, frange f r w -> range_holds k b w v).
(** the values that the bounds of a column allow; zero is a lower bound unless a statement sets or removes it *)
Definition fallowed (f : file) (c : string) (x : Qc) : Prop :=
  (forall t g, In (t, g, c) (f_bounds f) -> allows t x) /\ ((forall t g, In (t, g, c) (f_bounds f) -> leaves_lower t) -> 0 <= x).
Definition ffeasible (f : file) (x : valuation) : Prop :=
  (forall k r, In (Some k, r) (f_rows f) -> frow_holds f k r (frow_value f x r)) /\
  (forall c, In c (map fst (columns_of f)) -> fallowed f c (x c)).
(** the cost is the value of the row of type N *)
Definition cost_row (f : file) : string := match filter (fun '(k, _) => match k with None => true | Some _ => false end) (f_rows f) with (_, r) :: _ => r | [] => EmptyString end.
Definition fcost (f : file) (x : valuation) : Qc := frow_value f x (cost_row f).
Definition fsense (f : file) : direction := match f_sense f with Some d => d | None => Minimize end.
Definition foptimal (f : file) (x : valuation) : Prop := ffeasible f x /\ forall y, ffeasible f y -> better (fsense f) (fcost f x) (fcost f y).
Definition funbounded (f : file) : Prop := (exists x, ffeasible f x) /\ forall bound, exists y, ffeasible f y /\
  match fsense f with Minimize => fcost f y < bound | Maximize => bound < fcost f y end.

(** files of linear programs: coefficients are not zero, a row has at most one right-hand side, and one if it has a
    range, free variables have no bounds and the bounds of a variable do not contradict each other *)
Record file_solvable (f : file) : Prop := mk_file_solvable {
  fs_rules : file_rules f;
  fs_coefficients : forall c r v, In (c, r, v) (coefficients f) -> v <> 0;
  fs_one_rhs : NoDup (map (fun '(_, r, _) => r) (vector_values (f_rhs f)));
  fs_ranges : forall g r v, In (g, r, v) (vector_values (f_ranges f)) -> exists g' b, In (g', r, b) (vector_values (f_rhs f));
  fs_free : forall t g g' c, In (Free, g, c) (f_bounds f) -> In (t, g', c) (f_bounds f) -> t = Free;
  fs_domain : forall c, In c (map fst (columns_of f)) -> exists x, fallowed f c x
}.

(** the value that an answer gives to a name *)
Definition answer_at (s : solution) : valuation := fun c => match find (fun '(n, _) => String.eqb n c) (s_values s) with Some (_, v) => v | None => 0 end.
