(** * Comparing solutions: model of /repo/src/data/linear_program/solution.rs

    Values are rationals.  The last comparison is one of floating point numbers in the code (the number of equal values
    divided by the number of values, against a given fraction); here it is an arbitrary function [enough] of the two
    numbers, so that nothing depends on the rounding. *)
From Verif Require Export GeneralForm.
From Coq Require Import String List.
Local Open Scope string_scope.
Local Open Scope list_scope.

(** collecting pairs into a HashMap (solution.rs:56-57): of several values for a name the last one stays.  The keys in some order. *)
Definition keys (l : list (string * Qc)) : list string := nodup string_dec (map fst l).
(** HashMap::get *)
Definition map_get (l : list (string * Qc)) (name : string) : option Qc := option_map snd (find (fun e => String.eqb (fst e) name) (rev l)).
Definition values_equal (a b : option Qc) : bool := match a, b with Some v, Some w => qeqb v w | None, None => true | _, _ => false end.
(** solution.rs:47-78 *)
Definition is_probably_equal_to (enough : nat -> nat -> bool) (s t : solution) : bool :=
  if negb (qeqb (s_objective s) (s_objective t)) then false else
  if negb (Nat.eqb (length (s_values s)) (length (s_values t))) then false else
  if negb (Nat.eqb (length (keys (s_values s))) (length (keys (s_values t))) &&
           forallb (fun k => if in_dec string_dec k (keys (s_values t)) then true else false) (keys (s_values s))) then false else
  let nr_total := length (s_values s) in
  if Nat.ltb nr_total 10 then true else
  let nr_equal := length (filter (fun name => values_equal (map_get (s_values s) name) (map_get (s_values t) name)) (keys (s_values s))) in
  enough nr_equal nr_total.
