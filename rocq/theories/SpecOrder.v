(** * What related files ask: when the answers to two files can be compared *)
From Verif Require Export SpecFile SpecFixed TextPipeline TextPresolve.
Local Open Scope Qc_scope.

(** ** Ways to get an answer *)
(** [answered f a]: a run on some text that states the program [f] gave the answer [a].  Any spelling, any build, any
    representation of the basis inverse, any pivot rule, any number of iterations; with presolving or without.  With
    presolving the run is safe, as in C45, and the answer "unbounded" counts for a program that has a solution. *)
Inductive answered (f : file) (a : answer) : Prop :=
  | from_free b r n fuel text : file_ok f -> spells text f -> solve_text b r n fuel text = Got (Ok a) -> answered f a
  | from_fixed b r n fuel text : fixed_ok f -> fixed_spells text f -> solve_fixed_text b r n fuel text = Got (Ok a) -> answered f a
  | from_free_presolved b r n fuel text : file_ok f -> spells text f -> safe_text b fuel text = true -> (a = NoBound -> exists x, ffeasible f x) ->
      presolve_text b r n fuel text = Got (Ok a) -> answered f a
  | from_fixed_presolved b r n fuel text : fixed_ok f -> fixed_spells text f -> safe_fixed_text b fuel text = true -> (a = NoBound -> exists x, ffeasible f x) ->
      presolve_fixed_text b r n fuel text = Got (Ok a) -> answered f a.

(** ** The order of outcomes *)
Inductive outcome := Infeasible | Value (v : Qc) | Unbounded.
(** what an answer to [f] says: the cost of the values it gives to the columns *)
Definition outcome_of (f : file) (a : answer) : outcome :=
  match a with Solved_to s => Value (fcost f (answer_at s)) | NoSolution => Infeasible | NoBound => Unbounded end.
Definition no_worse (d : direction) (o' o : outcome) : Prop :=
  match o', o with
  | Unbounded, _ => True
  | _, Infeasible => True
  | Value v', Value v => better d v' v
  | _, _ => False
  end.

(** ** Related files *)
(** whatever a solution of [f] costs, some solution of [f'] costs at most that (or at least that, for a maximization) *)
Definition dominates (f' f : file) : Prop := fsense f' = fsense f /\ forall x, ffeasible f x -> exists x', ffeasible f' x' /\ better (fsense f) (fcost f' x') (fcost f x).

Definition names_of_rows (f : file) : list string := map snd (f_rows f).
Definition names_of_columns (f : file) : list string := map fst (columns_of f).
(** [f'] is [f] with its rows called [row r] instead of [r] and its columns [column c] instead of [c].  The lines of
    each section may have any order, entries may be distributed over lines in any way, the groups of right-hand sides,
    ranges and bounds may have any names, statements may be repeated, and a column may be an integer one or not *)
Record renamed (row column : string -> string) (f f' : file) : Prop := mk_renamed {
  rn_rows_differ : forall r r', In r (names_of_rows f) -> In r' (names_of_rows f) -> row r = row r' -> r = r';
  rn_columns_differ : forall c c', In c (names_of_columns f) -> In c' (names_of_columns f) -> column c = column c' -> c = c';
  rn_sense : fsense f' = fsense f;
  rn_rows : Permutation (map (fun '(k, r) => (k, row r)) (f_rows f)) (f_rows f');
  rn_coefficients : Permutation (map (fun '(c, r, v) => (column c, row r, v)) (coefficients f)) (coefficients f');
  rn_columns : forall c', In c' (names_of_columns f') <-> exists c, In c (names_of_columns f) /\ c' = column c;
  rn_rhs : forall r' b, (exists g, In (g, r', b) (vector_values (f_rhs f'))) <-> exists g r, In (g, r, b) (vector_values (f_rhs f)) /\ r' = row r;
  rn_ranges : forall r' v, (exists g, In (g, r', v) (vector_values (f_ranges f'))) <-> exists g r, In (g, r, v) (vector_values (f_ranges f)) /\ r' = row r;
  rn_bounds : forall t c', (exists g, In (t, g, c') (f_bounds f')) <-> exists g c, In (t, g, c) (f_bounds f) /\ c' = column c
}.

(** [f'] is [f] with less asked: every row of [f'] is one of [f] with the same coefficients, right-hand side and range,
    the bounds of [f] allow no value that those of [f'] forbid, and the costs are the same *)
Record relaxed (f f' : file) : Prop := mk_relaxed {
  rx_sense : fsense f' = fsense f;
  rx_rows : forall k r, In (Some k, r) (f_rows f') -> In (Some k, r) (f_rows f);
  rx_coefficients : forall r, In r (names_of_rows f') -> filter (fun '(_, r', _) => String.eqb r' r) (coefficients f') = filter (fun '(_, r', _) => String.eqb r' r) (coefficients f);
  rx_cost : cost_row f' = cost_row f;
  rx_rhs : forall k r b, In (Some k, r) (f_rows f') -> (exists g, In (g, r, b) (vector_values (f_rhs f'))) <-> exists g, In (g, r, b) (vector_values (f_rhs f));
  rx_ranges : forall k r v, In (Some k, r) (f_rows f') -> (exists g, In (g, r, v) (vector_values (f_ranges f'))) <-> exists g, In (g, r, v) (vector_values (f_ranges f));
  rx_columns : forall c, In c (names_of_columns f') -> In c (names_of_columns f);
  rx_bounds : forall c v, In c (names_of_columns f') -> fallowed f c v -> fallowed f' c v
}.

(** ** Other units *)
Definition scale_values (s : string -> Qc) (values : list (string * Qc)) : list (string * Qc) := map (fun '(r, v) => (r, s r * v)) values.
Definition scale_items (s : string -> Qc) (items : list column_item) : list column_item := map (fun item => match item with Entries c values => Entries c (scale_values s values) | item => item end) items.
Definition at_row (row : string) (k : Qc) : string -> Qc := fun r => if String.eqb r row then k else 1.
Definition opposite (d : direction) : direction := match d with Minimize => Maximize | Maximize => Minimize end.
(** all costs are multiplied by [k]; when [k] is negative, a minimum becomes a maximum *)
Definition scale_cost (k : Qc) (f : file) : file := {|
  f_name := f_name f; f_sense := Some (if qneg k then opposite (fsense f) else fsense f); f_rows := f_rows f;
  f_columns := scale_items (at_row (cost_row f) k) (f_columns f);
  f_rhs := f_rhs f; f_ranges := f_ranges f; f_bounds := f_bounds f |}.
(** both sides of the constraint [row], and its range, are multiplied by [k] *)
Definition scale_row (k : Qc) (row : string) (f : file) : file := {|
  f_name := f_name f; f_sense := f_sense f; f_rows := f_rows f;
  f_columns := scale_items (at_row row k) (f_columns f);
  f_rhs := map (fun '(g, values) => (g, scale_values (at_row row k) values)) (f_rhs f);
  f_ranges := map (fun '(g, values) => (g, scale_values (at_row row k) values)) (f_ranges f); f_bounds := f_bounds f |}.
Definition times (k : Qc) (o : outcome) : outcome := match o with Value v => Value (k * v) | o => o end.
