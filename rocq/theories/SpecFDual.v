(** * Certificates for the program in a file: the specification side *)
From Verif Require Export SpecFile SpecGDual.
Local Open Scope Qc_scope.

Definition constraint_names (f : file) : list string := map row_name (constraint_rows f).
Definition column_names_of (f : file) : list string := map fst (columns_of f).
(** One number [y r] for each row and [d c] for each column: [cost] is the sum of [y r] times the value of [r] and of
    [d c] times the value of [c], whatever the values are.  No value that row [r] allows makes its term smaller than
    [rows r], and no value allowed for [c] makes its term smaller than [vars c].  Then [cost x >= v] for all solutions,
    where [v] is the sum of these. *)
Definition fproves (f : file) (cost : valuation -> Qc) (y d : valuation) (v : Qc) : Prop :=
  exists rows vars : valuation,
    (forall x, cost x = total (map (fun r => y r * frow_value f x r) (constraint_names f)) + total (map (fun c => d c * x c) (column_names_of f))) /\
    (forall k r, In (Some k, r) (f_rows f) -> forall z, frow_holds f k r z -> rows r <= y r * z) /\
    (forall c, In c (column_names_of f) -> forall z, fallowed f c z -> vars c <= d c * z) /\
    total (map rows (constraint_names f)) + total (map vars (column_names_of f)) = v.
Definition fproves_bound (f : file) (y d : valuation) (v : Qc) : Prop :=
  fproves f (fun x => toward (fsense f) (fcost f x)) y d (toward (fsense f) v).
Definition fproves_infeasible (f : file) (y d : valuation) : Prop := exists v, 0 < v /\ fproves f (fun _ => 0) y d v.
(** no row and no bound is left however far one goes, and the cost gets better *)
Definition fray (f : file) (dir : valuation) : Prop :=
  (forall k r, In (Some k, r) (f_rows f) -> forall z t, frow_holds f k r z -> 0 <= t -> frow_holds f k r (z + t * frow_value f dir r)) /\
  (forall c, In c (column_names_of f) -> forall z t, fallowed f c z -> 0 <= t -> fallowed f c (z + t * dir c)) /\
  toward (fsense f) (fcost f dir) < 0.
