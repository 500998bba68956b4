(** * Sizes of the numbers of files

    The vocabulary of C58 for MPS files: nothing here models code. *)
From Verif Require Import SpecSize SpecFile.
Local Open Scope Z_scope.

(** all numbers that are written in a file are multiples of [1/d] with numerators of at most [K], as one itself; for
    numbers with at most three digits after the point, [d] is 1000 *)
Record fdata_size (d : positive) (K : Z) (f : file) : Prop := mk_fsize {
  fz_one : Zpos d <= K;
  fz_coefficients : forall c r v, In (c, r, v) (coefficients f) -> parts d K v;
  fz_rhs : forall g r v, In (g, r, v) (vector_values (f_rhs f)) -> parts d K v;
  fz_ranges : forall g r v, In (g, r, v) (vector_values (f_ranges f)) -> parts d K v;
  fz_bounds : forall t g c v, In (t, g, c) (f_bounds f) ->
    In t [LowerContinuous v; UpperContinuous v; Fixed v; LowerInteger v; UpperInteger v] -> parts d K v
}.
(** what a determinant of the program of a file can be at most *)
Definition file_bound (f : file) (K : Z) : Z :=
  let rows := length (constraint_rows f) in let columns := length (columns_of f) in
  det_bound (2 * rows + columns) ((2 * Z.of_nat columns + 2) * (2 * K * (2 * K))).
