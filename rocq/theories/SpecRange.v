(** * Column ranges: the specification side

    A matrix with holes: [cell a i j] is the value in row [i] and column [j], if there is one.  Shifts are a vector
    [x]: the amount [x i] is subtracted from all values in row [i]. *)
From Verif Require Export Spec ColumnRange.
Local Open Scope Qc_scope.

Definition height (a : input) : nat := length a.
Definition width (a : input) : nat := length (nth 0 a []).
(** the shifted values of column [j] *)
Definition shifted (a : input) (x : vec) (j : nat) : list Qc :=
  flat_map (fun i => match cell a i j with Some v => [zq v - x i] | None => [] end) (seq 0 (height a)).
Fixpoint largest (l : list Qc) : Qc := match l with [] => 0 | [v] => v | v :: t => qmax v (largest t) end.
Fixpoint smallest (l : list Qc) : Qc := match l with [] => 0 | [v] => v | v :: t => qmin v (smallest t) end.
(** the sum of all column ranges *)
Definition total_range (a : input) (x : vec) : Qc :=
  sum (width a) (fun j => largest (shifted a x j) - smallest (shifted a x j)).
(** nothing is added to a row, and no value becomes negative *)
Definition allowed (a : input) (x : vec) : Prop :=
  (forall i, (i < height a)%nat -> 0 <= x i) /\
  (forall i j v, (i < height a)%nat -> (j < width a)%nat -> cell a i j = Some v -> 0 <= zq v - x i).
Definition best_shifts (a : input) (x : vec) : Prop :=
  allowed a x /\ forall y, allowed a y -> total_range a x <= total_range a y.
(** every column has a value, values are not negative *)
Definition input_ok (a : input) : Prop :=
  (0 < width a)%nat /\
  (forall j, (j < width a)%nat -> exists i v, (i < height a)%nat /\ cell a i j = Some v) /\
  (forall i j v, (i < height a)%nat -> (j < width a)%nat -> cell a i j = Some v -> (0 <= v)%Z).
