(** * What a debug build asks of the text of a program in addition *)
From Verif Require Export SpecFile SpecSizes.
Local Open Scope Qc_scope.

(** ** Of the text *)
(** a start marker stands where the columns are not integer, an end marker where they are *)
Fixpoint alternating (integer : bool) (items : list column_item) : Prop :=
  match items with
  | [] => True
  | StartInteger :: t => integer = false /\ alternating true t
  | EndInteger :: t => integer = true /\ alternating false t
  | Entries _ _ :: t => alternating integer t
  end.

(** ** Of the program that was read *)
(** how often a row is named *)
Definition times (i : nat) (l : list (nat * Qc)) : nat := length (filter (fun e => Nat.eqb (fst e) i) l).
(** the columns have different names, no coefficient is zero, and a row with a range has one right-hand side *)
Record clean (m : mps) : Prop := mk_clean {
  cl_names : NoDup (map col_name (m_columns m));
  cl_coefficients : forall c i v, In c (m_columns m) -> In (i, v) (col_values c) -> v <> 0;
  cl_rhs : forall i r, given_range m i r -> r <> 0 -> (times i (ungroup (m_rhss m)) <= 1)%nat
}.

(** ** The sizes of a program, by its text: [enough] of SpecSizes.v without the bounds *)
Definition range_of (f : file) (r : string) : option Qc :=
  match filter (fun '(_, r', _) => String.eqb r' r) (vector_values (f_ranges f)) with (_, w) :: _ => Some w | [] => None end.
(** an equality is no inequality, a range that is not zero is two *)
Definition row_inequalities (f : file) (row : mrow) : nat :=
  match range_of f (row_name row), row_kind row with
  | Some w, _ => if qzero w then 0 else 2
  | None, KEqual => 0
  | None, _ => 1
  end.
Definition finequalities (f : file) : nat := list_sum (map (row_inequalities f) (constraint_rows f)).
(** the coefficients in constraints *)
Definition fentries (f : file) : nat := length (filter (fun '(_, r, _) => negb (String.eqb r (cost_row f))) (coefficients f)).
Definition fenough (r : representation) (f : file) : Prop :=
  match r with UseRows => (1 <= fentries f + finequalities f)%nat | UseLU => (2 <= finequalities f)%nat end.
