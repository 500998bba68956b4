(** * Programs of limits, and programs of demands: the specification side

    In a program of limits every constraint says that a combination of the variables, with coefficients that
    are not negative, is at most something: a plan that has to make do with what there is.  In a program of
    demands every constraint says that such a combination is at least something.  No variable has a single
    value only. *)
From Verif Require Import SpecGeneral.
Local Open Scope Qc_scope.

(** every variable at its smallest value, and every variable at its largest *)
Definition least (g : general) : vec := fun j => match v_lower (var g j) with Some l => l | None => 0 end.
Definition most (g : general) : vec := fun j => match v_upper (var g j) with Some h => h | None => 0 end.
(** a constraint of which all variables have a smallest value leaves room when they have that value *)
Record limits (g : general) : Prop := mk_limits {
  li_types : forall i, (i < g_rows g)%nat -> row_type g i = Less;
  li_signs : forall i j, (i < g_rows g)%nat -> (j < nr_vars g)%nat -> 0 <= coefficient g i j;
  li_spread : forall j l h, (j < nr_vars g)%nat -> v_lower (var g j) = Some l -> v_upper (var g j) = Some h -> l < h;
  li_room : forall i, (i < g_rows g)%nat -> (forall j, (j < nr_vars g)%nat -> coefficient g i j <> 0 -> v_lower (var g j) <> None) ->
     row_value g (least g) i < nthq (g_b g) i }.
(** a constraint of which all variables have a largest value is met with room when they have that value *)
Record demands (g : general) : Prop := mk_demands {
  de_types : forall i, (i < g_rows g)%nat -> row_type g i = Greater;
  de_signs : forall i j, (i < g_rows g)%nat -> (j < nr_vars g)%nat -> 0 <= coefficient g i j;
  de_spread : forall j l h, (j < nr_vars g)%nat -> v_lower (var g j) = Some l -> v_upper (var g j) = Some h -> l < h;
  de_room : forall i, (i < g_rows g)%nat -> (forall j, (j < nr_vars g)%nat -> coefficient g i j <> 0 -> v_upper (var g j) <> None) ->
     nthq (g_b g) i < row_value g (most g) i }.
(** every variable counts in the objective *)
Definition priced (g : general) : Prop := forall j, (j < nr_vars g)%nat -> v_cost (var g j) <> 0.
Definition one_sided (g : general) : Prop := (limits g \/ demands g) /\ priced g.

(** The two best known cases.  Packing: as much as possible of things that are not negative, out of supplies;
    of everything there is a limit. *)
Record packing (g : general) : Prop := mk_packing {
  pk_types : forall i, (i < g_rows g)%nat -> row_type g i = Less;
  pk_signs : forall i j, (i < g_rows g)%nat -> (j < nr_vars g)%nat -> 0 <= coefficient g i j;
  pk_supply : forall i, (i < g_rows g)%nat -> 0 < nthq (g_b g) i;
  pk_lower : forall j, (j < nr_vars g)%nat -> v_lower (var g j) = Some 0;
  pk_upper : forall j h, (j < nr_vars g)%nat -> v_upper (var g j) = Some h -> 0 < h;
  pk_limit : forall j, (j < nr_vars g)%nat -> v_upper (var g j) <> None \/ exists i, (i < g_rows g)%nat /\ coefficient g i j <> 0 }.
(** Covering: meeting demands with things that are not negative, at the least cost; everything costs something
    and something helps to meet every demand. *)
Record covering (g : general) : Prop := mk_covering {
  cr_sense : g_objective g = Minimize;
  cr_types : forall i, (i < g_rows g)%nat -> row_type g i = Greater;
  cr_signs : forall i j, (i < g_rows g)%nat -> (j < nr_vars g)%nat -> 0 <= coefficient g i j;
  cr_helped : forall i, (i < g_rows g)%nat -> exists j, (j < nr_vars g)%nat /\ coefficient g i j <> 0;
  cr_bounds : forall j, (j < nr_vars g)%nat -> v_lower (var g j) = Some 0 /\ v_upper (var g j) = None;
  cr_costs : forall j, (j < nr_vars g)%nat -> 0 < v_cost (var g j) }.
