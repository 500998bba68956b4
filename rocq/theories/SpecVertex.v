(** * Vertices of general form programs and of files: the specification side *)
From Verif Require Export SpecGeneral SpecFile.
Local Open Scope Qc_scope.

(** a point that is not strictly between two other solutions *)
Definition gextreme (g : general) (x : vec) : Prop :=
  forall y z a, gfeasible g y -> gfeasible g z -> 0 < a -> a < 1 ->
    (forall j, (j < nr_vars g)%nat -> x j = a * y j + (1 - a) * z j) ->
    forall j, (j < nr_vars g)%nat -> y j = x j /\ z j = x j.
(** every variable has a bound *)
Definition bounded (g : general) : Prop := forall j, (j < nr_vars g)%nat -> ~ (v_lower (var g j) = None /\ v_upper (var g j) = None).

Definition fextreme (f : file) (x : valuation) : Prop :=
  forall y z a, ffeasible f y -> ffeasible f z -> 0 < a -> a < 1 ->
    (forall c, In c (map fst (columns_of f)) -> x c = a * y c + (1 - a) * z c) ->
    forall c, In c (map fst (columns_of f)) -> y c = x c /\ z c = x c.
(** the statements about bounds limit every column on one side at least *)
Definition fbounded (f : file) : Prop := forall c, In c (map fst (columns_of f)) -> exists x, ~ fallowed f c x.
