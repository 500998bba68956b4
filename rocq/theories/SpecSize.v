(** * Sizes of numbers

    The vocabulary of C58: nothing here models code.  The rationals of the model are always in lowest terms, as those of
    the number types used with the solver. *)
From Verif Require Import Provider LinAlg SparseP.
Local Open Scope Z_scope.

(** the numerator and the denominator of [x] in lowest terms are at most [K] *)
Definition size_at_most (K : Z) (x : Qc) : Prop := Z.abs (Qnum x) <= K /\ Zpos (Qden x) <= K.
(** [x] is a multiple of [1/d], with a numerator of at most [K] *)
Definition parts (d : positive) (K : Z) (x : Qc) : Prop := exists z : Z, x = Q2Qc (z # d) /\ Z.abs z <= K.
(** all numbers of a problem are multiples of [1/d] with numerators of at most [K], as one itself *)
Record data_size (d : positive) (K : Z) (p : provider) : Prop := mk_size {
  ds_one : Zpos d <= K;
  ds_cols : forall i j, (i < p_rows p)%nat -> (j < p_cols p)%nat -> parts d K (den (p_col p j) i);
  ds_rhs : forall i, (i < p_rows p)%nat -> parts d K (nthq (p_rhs p) i);
  ds_cost : forall j, (j < p_cols p)%nat -> parts d K (p_cost p j)
}.
Fixpoint zfact (n : nat) : Z := match n with O => 1 | S k => Z.of_nat n * zfact k end.
(** what a determinant of [m] rows of numbers of at most [K] can be at most *)
Definition det_bound (m : nat) (K : Z) : Z := zfact m * K ^ Z.of_nat m.
