(** * Files with packing and covering programs: the specification side *)
From Verif Require Import SpecMps.
From Verif Require Export SpecFile.
Local Open Scope Qc_scope.

Definition no_ranges (f : file) : Prop := forall g r v, ~ In (g, r, v) (vector_values (f_ranges f)).
(** statements of the section BOUNDS that leave the values from zero up to something positive *)
Definition up_to (t : bound_type) : Prop := match t with UpperContinuous v | UpperInteger v => 0 < v | Binary => True | _ => False end.
(** Packing: all rows are of type L with a positive right-hand side, all coefficients in them are positive, every
    column is in the row of type N and in another row or in the section BOUNDS, which has upper bounds only. *)
Record file_packing (f : file) : Prop := mk_file_packing {
  fp_rows : forall k r, In (Some k, r) (f_rows f) -> k = KLess;
  fp_signs : forall c r v, In (c, r, v) (coefficients f) -> r <> cost_row f -> 0 < v;
  fp_supply : forall k r b, In (Some k, r) (f_rows f) -> frhs f r b -> 0 < b;
  fp_ranges : no_ranges f;
  fp_bounds : forall t g c, In (t, g, c) (f_bounds f) -> up_to t;
  fp_costs : forall c, In c (map fst (columns_of f)) -> exists v, In (c, cost_row f, v) (coefficients f);
  fp_limit : forall c, In c (map fst (columns_of f)) -> (exists t g, In (t, g, c) (f_bounds f)) \/ (exists r v, r <> cost_row f /\ In (c, r, v) (coefficients f)) }.
(** Covering: the file minimizes, all rows are of type G with at least one coefficient, all coefficients are
    positive, every column is in the row of type N and there are no bounds. *)
Record file_covering (f : file) : Prop := mk_file_covering {
  fv_sense : fsense f = Minimize;
  fv_rows : forall k r, In (Some k, r) (f_rows f) -> k = KGreater /\ exists c v, In (c, r, v) (coefficients f);
  fv_signs : forall c r v, In (c, r, v) (coefficients f) -> 0 < v;
  fv_ranges : no_ranges f;
  fv_bounds : f_bounds f = [];
  fv_costs : forall c, In c (map fst (columns_of f)) -> exists v, In (c, cost_row f, v) (coefficients f) }.
Definition file_sided (f : file) : Prop := file_packing f \/ file_covering f.
