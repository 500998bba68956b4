(** * Sizes of the numbers of general form programs

    The vocabulary of C58 for programs in general form: nothing here models code. *)
From Verif Require Import SpecSize SpecGeneral GeneralForm LinAlg SparseP.
Local Open Scope Z_scope.

(** all numbers of a general form program are multiples of [1/d] with numerators of at most [K], as one itself *)
Record gdata_size (d : positive) (K : Z) (g : general) : Prop := mk_gsize {
  gz_one : Zpos d <= K;
  gz_fixed : parts d K (g_fixed g);
  gz_cols : forall i j, (j < nr_vars g)%nat -> parts d K (coefficient g i j);
  gz_b : forall i, (i < g_rows g)%nat -> parts d K (nthq (g_b g) i);
  gz_range : forall i r, row_type g i = Range r -> parts d K r;
  gz_cost : forall j, (j < nr_vars g)%nat -> parts d K (v_cost (var g j));
  gz_lower : forall j l, (j < nr_vars g)%nat -> v_lower (var g j) = Some l -> parts d K l;
  gz_upper : forall j u, (j < nr_vars g)%nat -> v_upper (var g j) = Some u -> parts d K u
}.
(** what the numbers of the program given to the solver can be at most, in multiples of [1/d^2] *)
Definition standard_size (g : general) (K : Z) : Z := (2 * Z.of_nat (nr_vars g) + 2) * (K * K).
(** what a determinant of that program can be at most: it has a row for every constraint, one more for every range and
    one for every upper bound *)
Definition general_bound (g : general) (K : Z) : Z := det_bound (2 * g_rows g + nr_vars g) (standard_size g K).
