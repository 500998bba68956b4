(** * Certificates for the answers to a linear program: the specification side

    The problem of a provider is to minimize [c x] subject to [A x = b], [x >= 0] (Spec.v).  A certificate can be checked by
    multiplying and adding numbers, without knowing how it was found. *)
From Verif Require Export Spec.
Local Open Scope Qc_scope.

(** One multiplier per row: the combination of the rows has coefficients of at most the costs, and its right-hand side is
    [v].  So [c x >= v] for all solutions. *)
Definition proves_bound (p : provider) (y : vec) (v : Qc) : Prop :=
  (forall j, (j < p_cols p)%nat -> sum (p_rows p) (fun i => y i * den (p_col p j) i) <= p_cost p j) /\
  sum (p_rows p) (fun i => y i * nthq (p_rhs p) i) = v.
(** The combination of the rows has no positive coefficient, and a positive right-hand side: there is no solution. *)
Definition proves_infeasible (p : provider) (y : vec) : Prop :=
  (forall j, (j < p_cols p)%nat -> sum (p_rows p) (fun i => y i * den (p_col p j) i) <= 0) /\
  0 < sum (p_rows p) (fun i => y i * nthq (p_rhs p) i).
(** A direction in which one can go on forever, and in which the cost gets smaller. *)
Definition ray (p : provider) (d : vec) : Prop :=
  (forall i, (i < p_rows p)%nat -> sum (p_cols p) (fun j => den (p_col p j) i * d j) = 0) /\
  (forall j, (j < p_cols p)%nat -> 0 <= d j) /\ objective p d < 0.
