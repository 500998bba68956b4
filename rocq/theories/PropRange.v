(** * Properties of the column range program (C43)

    [column_range r n fuel a] is `main` of examples/column_range.rs for the matrix with holes [a].  The
    specification is SpecRange.v: what shifts are allowed, and the sum of the ranges of the columns after shifting. *)
From Verif Require Import RangeR RangeI ExRange.
Local Open Scope Qc_scope.

(** The shifts that are printed are allowed, one per row, and no allowed shifts have a smaller sum of ranges. *)
Theorem C43_best : forall r n fuel a l, input_ok a -> column_range r n fuel a = Ok l -> length l = height a /\ best_shifts a (nthq l).
Proof. exact range_best. Qed.
Print Assumptions C43_best.
(** The shifts are whole numbers. *)
Theorem C43_whole : forall r n fuel a l, input_ok a -> column_range r n fuel a = Ok l -> forall x, In x l -> exists z : Z, x = Q2Qc (inject_Z z).
Proof. exact range_whole. Qed.
Print Assumptions C43_whole.
(** There is no panic, and with the rule the program uses there is an answer. *)
Theorem C43_no_panic : forall r n fuel a, input_ok a -> column_range r n fuel a <> Panic.
Proof. exact range_no_panic. Qed.
Print Assumptions C43_no_panic.
Theorem C43_terminates : forall r a, input_ok a -> exists l fuel, forall fuel', (fuel <= fuel')%nat -> column_range r FirstProfitable fuel' a = Ok l.
Proof. exact range_terminates. Qed.
Print Assumptions C43_terminates.

(** the matrix of examples/column_range.rs:43-47 *)
Example C43_case : input_ok ex_input /\ (forall r, column_range r FirstProfitable 100 ex_input = Ok [1; 1; 0]) /\
  total_range ex_input (fun _ => 0) = zq 3 /\ total_range ex_input (nthq [1; 1; 0]) = zq 2.
Proof. exact (conj ex_input_ok (conj ex_input_runs ex_input_ranges)). Qed.

(** ** What the hypotheses exclude *)
(** The comment at column_range.rs:40 asks for a value in each row; what is needed is a value in each column. *)
Theorem C43_column_of_holes_refuted : exists a, (forall i, (i < height a)%nat -> exists j v, (j < width a)%nat /\ cell a i j = Some v) /\
  (forall i j v, cell a i j = Some v -> (0 <= v)%Z) /\ forall r n fuel, column_range r n fuel a = Panic.
Proof. exact hole_column. Qed.
Print Assumptions C43_column_of_holes_refuted.
(** With negative values, which are excluded at column_range.rs:41-42, shifts may come out that are negative. *)
Theorem C43_negative_value_refuted : exists a l, (0 < width a)%nat /\ (forall j, (j < width a)%nat -> exists i v, (i < height a)%nat /\ cell a i j = Some v) /\
  (forall r, column_range r FirstProfitable 100 a = Ok l) /\ exists i, (i < height a)%nat /\ nthq l i < 0.
Proof. exact negative_value. Qed.
Print Assumptions C43_negative_value_refuted.
