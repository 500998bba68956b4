(** * What two solutions have in common *)
From Verif Require Export GeneralForm.
From Coq Require Import String List Bool.

(** the number of values of the first solution that the second gives to the same variables *)
Definition shared (s t : solution) : nat :=
  length (filter (fun '(name, v) => existsb (fun '(name', w) => String.eqb name name' && qeqb v w) (s_values t)) (s_values s)).
