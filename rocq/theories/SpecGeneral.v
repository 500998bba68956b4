(** * What a general form linear program means: the specification side

    Nothing here refers to the code that transforms programs.  A program has the variables
    [0 .. length (g_vars g) - 1]; a point is a vector, a function from indices to rationals of which only
    those values matter. *)
From Verif Require Export Spec MatrixData.

Definition no_variable : variable := mk_var false 0 None None 0 false.
Definition nr_vars (g : general) : nat := length (g_vars g).
Definition var (g : general) (j : nat) : variable := nth j (g_vars g) no_variable.
Definition coefficient (g : general) (i j : nat) : Qc := den (nth j (g_cols g) []) i.
Definition row_type (g : general) (i : nat) : rel := nth i (g_types g) Equal.

(** the value of the left-hand side of constraint [i] *)
Definition row_value (g : general) (x : vec) (i : nat) : Qc :=
  sum (nr_vars g) (fun j => coefficient g i j * x j).
(** general_form/mod.rs:56-63: how a constraint type and a right-hand side are read *)
Definition rel_holds (t : rel) (b v : Qc) : Prop :=
  match t with
  | Equal => v = b
  | Range r => b - r <= v /\ v <= b
  | Less => v <= b
  | Greater => b <= v
  end.
Definition in_bounds (v : variable) (x : Qc) : Prop :=
  (forall l, v_lower v = Some l -> l <= x) /\ (forall u, v_upper v = Some u -> x <= u).

Definition gfeasible (g : general) (x : vec) : Prop :=
  (forall i, (i < g_rows g)%nat -> rel_holds (row_type g i) (nthq (g_b g) i) (row_value g x i)) /\
  (forall j, (j < nr_vars g)%nat -> in_bounds (var g j) (x j)).
Definition gcost (g : general) (x : vec) : Qc :=
  g_fixed g + sum (nr_vars g) (fun j => v_cost (var g j) * x j).
Definition better (d : direction) (a b : Qc) : Prop :=
  match d with Minimize => a <= b | Maximize => b <= a end.
Definition goptimal (g : general) (x : vec) : Prop :=
  gfeasible g x /\ forall y, gfeasible g y -> better (g_objective g) (gcost g x) (gcost g y).
Definition gunbounded (g : general) : Prop :=
  (exists x, gfeasible g x) /\ forall bound, exists y, gfeasible g y /\
    match g_objective g with Minimize => gcost g y < bound | Maximize => bound < gcost g y end.

(** general_form/mod.rs:1018-1025: the value a variable had before it was shifted and flipped *)
Definition own_value (v : variable) (x : Qc) : Qc :=
  if v_flipped v then - (x - v_shift v) else x - v_shift v.
(** general_form/mod.rs:80-132: [val] gives every variable of the original problem the value that
    belongs to the point [x] of the remaining problem *)
Fixpoint combination (l : svec) (val : nat -> Qc) : Qc :=
  match l with [] => 0 | (j, a) :: t => a * val j + combination t val end.
Definition entry_value (g : general) (x val : vec) (e : original) : Qc :=
  match e with
  | Active j => own_value (var g j) (x j)
  | ActiveFree p n => own_value (var g p) (x p) - own_value (var g n) (x n)
  | Removed (Solved v) => v
  | Removed (FunctionOf c l) => c - combination l val
  end.
Definition completed (g : general) (x val : vec) : Prop :=
  forall o name e, nth_error (g_orig g) o = Some (name, e) -> val o = entry_value g x val e.

(** Consistent programs: the sizes agree (general_form/mod.rs:138-204 `is_consistent`), columns are
    sorted with non-zero values, ranges are non-negative (elements.rs:52), no variable has an empty domain,
    and the two maps between original and remaining variables agree. *)
Record general_ok (g : general) : Prop := mk_gok {
  gok_cols : length (g_cols g) = nr_vars g;
  gok_from : length (g_from g) = nr_vars g;
  gok_types : length (g_types g) = g_rows g;
  gok_b : length (g_b g) = g_rows g;
  gok_sorted : forall j, (j < nr_vars g)%nat -> wfs (g_rows g) (nth j (g_cols g) []);
  gok_ranges : forall i r, (i < g_rows g)%nat -> row_type g i = Range r -> 0 <= r;
  gok_domain : forall j l u, (j < nr_vars g)%nat -> v_lower (var g j) = Some l -> v_upper (var g j) = Some u -> l <= u;
  gok_active : forall o name j, nth_error (g_orig g) o = Some (name, Active j) ->
     (j < nr_vars g)%nat /\ nth j (g_from g) 0%nat = o;
  gok_split : forall o name p n, nth_error (g_orig g) o = Some (name, ActiveFree p n) ->
     (p < nr_vars g)%nat /\ (n < nr_vars g)%nat /\ nth p (g_from g) 0%nat = o /\ nth n (g_from g) 0%nat = o;
  gok_free : forall j, (j < nr_vars g)%nat -> v_lower (var g j) = None -> v_upper (var g j) = None ->
     v_flipped (var g j) = false /\
     exists name, nth_error (g_orig g) (nth j (g_from g) 0%nat) = Some (name, Active j)
}.

(** A program as a user writes it down: nothing has been transformed or removed. *)
Definition fresh (g : general) : Prop :=
  length (g_orig g) = nr_vars g /\
  (forall j, (j < nr_vars g)%nat -> exists name, nth_error (g_orig g) j = Some (name, Active j)) /\
  (forall j, (j < nr_vars g)%nat -> v_shift (var g j) = 0 /\ v_flipped (var g j) = false) /\
  (forall j, (j < nr_vars g)%nat -> nth j (g_from g) 0%nat = j).

(** the values a solution reports, as a point: the [j]-th value is that of the [j]-th original variable *)
Definition solution_point (s : solution) : vec := fun j => nth j (map snd (s_values s)) 0.

(** Standard shape: a minimization program with non-negative variables and right-hand sides, whose
    constraints are grouped by type as counted by [c]. *)
Record standard_shape (g : general) (c : counts) : Prop := mk_shape {
  ss_objective : g_objective g = Minimize;
  ss_rows : g_rows g = (n_equal c + n_range c + n_less c + n_greater c)%nat;
  ss_lower : forall j, (j < nr_vars g)%nat -> v_lower (var g j) = Some 0;
  ss_b : forall i, (i < g_rows g)%nat -> 0 <= nthq (g_b g) i;
  ss_equal : forall i, (i < n_equal c)%nat -> row_type g i = Equal;
  ss_range : forall i, (i < n_range c)%nat -> exists r, row_type g (n_equal c + i) = Range r;
  ss_less : forall i, (i < n_less c)%nat -> row_type g (n_equal c + n_range c + i) = Less;
  ss_greater : forall i, (i < n_greater c)%nat -> row_type g (n_equal c + n_range c + n_less c + i) = Greater
}.
