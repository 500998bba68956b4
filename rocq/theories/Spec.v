(** * What it means to solve a linear program: the specification side

    Nothing here refers to the solver.  A provider describes the problem
      minimize c x  subject to  A x = b, x >= 0
    with [A i j = den (p_col p j) i], [b = p_rhs p] and [c = p_cost p]; [den] reads a sorted list of
    (index, value) tuples as a vector (Sparse.v).  A solution is a vector, that is a function from
    indices to rationals of which only the first [p_cols p] values matter. *)
From Verif Require Export LinAlg Provider.

Definition feasible (p : provider) (x : vec) : Prop :=
  (forall i, (i < p_rows p)%nat ->
     sum (p_cols p) (fun j => den (p_col p j) i * x j) = nthq (p_rhs p) i) /\
  (forall j, (j < p_cols p)%nat -> 0 <= x j).

Definition objective (p : provider) (x : vec) : Qc := sum (p_cols p) (fun j => p_cost p j * x j).

Definition optimal (p : provider) (x : vec) : Prop :=
  feasible p x /\ forall y, feasible p y -> objective p x <= objective p y.

(** A vertex: the columns in which [x] is not zero are independent, that is, no other point that is zero where [x]
    is zero satisfies the same equations. *)
Definition vertex (p : provider) (x : vec) : Prop :=
  forall y, (forall j, (j < p_cols p)%nat -> x j = 0 -> y j = 0) ->
    (forall i, (i < p_rows p)%nat -> sum (p_cols p) (fun j => den (p_col p j) i * y j) = 0) ->
    forall j, (j < p_cols p)%nat -> y j = 0.

(** not strictly between two other solutions *)
Definition extreme (p : provider) (x : vec) : Prop :=
  forall y z a, feasible p y -> feasible p z -> 0 < a -> a < 1 ->
    (forall j, (j < p_cols p)%nat -> x j = a * y j + (1 - a) * z j) ->
    forall j, (j < p_cols p)%nat -> y j = x j /\ z j = x j.

(** Nowhere degenerate: every way to make the right-hand side out of non-negative amounts of columns and of unit
    columns uses at least as many of them as there are rows. *)
Definition nonzeros (n : nat) (x : vec) : nat := length (filter (fun j => negb (qzero (x j))) (seq 0 n)).
Definition nondegenerate (p : provider) : Prop :=
  forall x y, (forall j, 0 <= x j) -> (forall i, 0 <= y i) ->
    (forall i, (i < p_rows p)%nat -> sum (p_cols p) (fun j => den (p_col p j) i * x j) + y i = nthq (p_rhs p) i) ->
    (p_rows p <= nonzeros (p_cols p) x + nonzeros (p_rows p) y)%nat.

Definition unbounded (p : provider) : Prop :=
  (exists x, feasible p x) /\ forall bound, exists y, feasible p y /\ objective p y < bound.

(** Row [i] is a linear combination of the rows outside [rm]: a vector [y] with [y_i = 1], zero in
    the other rows of [rm], [y A = 0] and [y b = 0]. *)
Definition redundant (p : provider) (rm : list nat) : Prop :=
  NoDup rm /\
  forall i, In i rm -> (i < p_rows p)%nat /\
    exists y, y i = 1 /\ (forall r, In r rm -> r <> i -> y r = 0) /\
      (forall j, (j < p_cols p)%nat -> sum (p_rows p) (fun r => y r * den (p_col p j) r) = 0) /\
      sum (p_rows p) (fun r => y r * nthq (p_rhs p) r) = 0.

Fixpoint increasing_from (lo : nat) (l : list nat) : Prop :=
  match l with
  | [] => True
  | x :: t => (lo <= x)%nat /\ increasing_from (S x) t
  end.

(** Documented contract of `pivot_element_indices` (phase_one.rs:62-80): unit columns, sorted by
    row; for `FullInitialBasis` (phase_one.rs:107-117) the columns are a feasible basis. *)
Definition init_ok (p : provider) : Prop :=
  match p_init p with
  | NoInit => True
  | PartialInit real =>
      increasing_from 0 (map fst real) /\
      forall r j, In (r, j) real ->
        (r < p_rows p)%nat /\ (j < p_cols p)%nat /\ p_col p j = sbasis r
  | FullInit real =>
      increasing_from 0 (map fst real) /\ length real = p_rows p /\
      (forall r j, In (r, j) real -> (r < p_rows p)%nat /\ (j < p_cols p)%nat) /\
      exists N, is_inverse (p_rows p) N (fun i r => den (p_col p (nth r (map snd real) 0%nat)) i) /\
        forall r, (r < p_rows p)%nat -> 0 <= sum (p_rows p) (fun i => N r i * nthq (p_rhs p) i)
  end.

(** Contract of a matrix provider (matrix_provider/mod.rs:22-130 and its debug assertions): sizes
    agree, the right hand side is non-negative, columns are sorted with non-zero values, and
    filtering out redundant rows works. *)
Record provider_ok (p : provider) : Prop := mk_pok {
  pok_len : length (p_rhs p) = p_rows p;
  pok_rhs : forall i, (i < p_rows p)%nat -> 0 <= nthq (p_rhs p) i;
  pok_cols : forall j, (j < p_cols p)%nat -> wfs (p_rows p) (p_col p j);
  pok_init : init_ok p;
  pok_filter : forall rm j, increasing_from 0 rm -> redundant p rm -> (j < p_cols p)%nat ->
     p_filtered p rm j = sremove (p_col p j) rm
}.
