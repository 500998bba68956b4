(** * Programs of networks, and whole numbers: the specification side

    In a program of a network every variable occurs in at most two constraints, with a coefficient of 1 or -1: it
    takes something away here and brings it there (flows, transports), or it serves two demands (assignments).  The
    constraints have two sides; a variable has different signs in two constraints of the same side and the same sign in
    two constraints of different sides.  Nothing here models code. *)
From Verif Require Export SpecGeneral SpecFile SpecPair Whole.
Local Open Scope Qc_scope.

(** how the coefficients [a] and [b] of a variable in two constraints are related *)
Definition opposed (same_side : bool) (a b : Qc) : Prop := a <> 0 -> b <> 0 -> a = if same_side then - b else b.
Definition unit_value (a : Qc) : Prop := a = 0 \/ a = 1 \/ a = - (1).

(** ** General form *)
Record network (side : nat -> bool) (g : general) : Prop := mk_network {
  nt_units : forall i j, (i < g_rows g)%nat -> (j < nr_vars g)%nat -> unit_value (coefficient g i j);
  nt_pairs : forall i i' j, (i < g_rows g)%nat -> (i' < g_rows g)%nat -> i <> i' -> (j < nr_vars g)%nat ->
     opposed (Bool.eqb (side i) (side i')) (coefficient g i j) (coefficient g i' j)
}.
(** the right-hand sides, the ranges and the bounds are whole numbers; the costs need not be *)
Record whole_data (g : general) : Prop := mk_whole_data {
  wd_b : forall i, (i < g_rows g)%nat -> whole (nthq (g_b g) i);
  wd_range : forall i r, (i < g_rows g)%nat -> row_type g i = Range r -> whole r;
  wd_lower : forall j l, (j < nr_vars g)%nat -> v_lower (var g j) = Some l -> whole l;
  wd_upper : forall j u, (j < nr_vars g)%nat -> v_upper (var g j) = Some u -> whole u
}.

(** ** Files *)
Record fnetwork (side : string -> bool) (f : file) : Prop := mk_fnetwork {
  fn_units : forall r c, is_constraint f r -> In c (column_names_of f) -> unit_value (frow_value f (only c) r);
  fn_pairs : forall r r' c, is_constraint f r -> is_constraint f r' -> r <> r' -> In c (column_names_of f) ->
     opposed (Bool.eqb (side r) (side r')) (frow_value f (only c) r) (frow_value f (only c) r')
}.
Definition bound_value (t : bound_type) : option Qc :=
  match t with LowerContinuous v | UpperContinuous v | LowerInteger v | UpperInteger v | Fixed v => Some v | _ => None end.
Record fwhole_data (f : file) : Prop := mk_fwhole_data {
  fw_rhs : forall r b, is_constraint f r -> frhs f r b -> whole b;
  fw_range : forall r v, is_constraint f r -> frange f r v -> whole v;
  fw_bounds : forall t g c v, In (t, g, c) (f_bounds f) -> bound_value t = Some v -> whole v
}.

(** ** The best whole solution *)
Definition whole_point (g : general) (x : vec) : Prop := forall j, (j < nr_vars g)%nat -> whole (x j).
Definition whole_optimal (g : general) (x : vec) : Prop := gfeasible g x /\ whole_point g x /\
  forall y, gfeasible g y -> whole_point g y -> better (g_objective g) (gcost g x) (gcost g y).
Definition fwhole_point (f : file) (x : valuation) : Prop := forall c, In c (column_names_of f) -> whole (x c).
Definition fwhole_optimal (f : file) (x : valuation) : Prop := ffeasible f x /\ fwhole_point f x /\
  forall y, ffeasible f y -> fwhole_point f y -> better (fsense f) (fcost f x) (fcost f y).
