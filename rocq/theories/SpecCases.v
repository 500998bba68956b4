(** * Solving a program by cases: the specification side (C66) *)
From Verif Require Export SpecUnits.
Local Open Scope Qc_scope.

(** every solution of [f] is one of [f1] or of [f2], there are no others, and they cost the same in all three *)
Record two_cases (f f1 f2 : file) : Prop := mk_two_cases {
  tc_sense1 : fsense f1 = fsense f;
  tc_sense2 : fsense f2 = fsense f;
  tc_cost1 : forall x, fcost f1 x = fcost f x;
  tc_cost2 : forall x, fcost f2 x = fcost f x;
  tc_solutions : forall x, ffeasible f x <-> ffeasible f1 x \/ ffeasible f2 x
}.
(** the better one of two outcomes *)
Definition best (d : direction) (o1 o2 : outcome) : outcome :=
  match o1, o2 with
  | Infeasible, o | o, Infeasible => o
  | Unbounded, _ | _, Unbounded => Unbounded
  | Value v1, Value v2 => match d with Minimize => Value (qmin v1 v2) | Maximize => Value (qmax v1 v2) end
  end.
(** every solution of [f] is one of some program in the list, there are no others, and they cost the same *)
Record all_cases (f : file) (fs : list file) : Prop := mk_all_cases {
  ac_sense : forall g, In g fs -> fsense g = fsense f;
  ac_cost : forall g x, In g fs -> fcost g x = fcost f x;
  ac_solutions : forall x, ffeasible f x <-> exists g, In g fs /\ ffeasible g x
}.
(** the best one of the outcomes of the programs in the list, given their answers *)
Definition best_of (d : direction) (fs : list file) (l : list answer) : outcome :=
  fold_right (best d) Infeasible (map (fun '(g, a) => outcome_of g a) (combine fs l)).
