(** * How many steps are enough
    [m] is the number of constraints of a program, [n] that of its variables.  The solver searches for a basis
    among columns for the variables, their negative parts, slacks and artificial variables, with at most a row
    per constraint, per range and per upper bound.  The presolver makes at most so many iterations, a polynomial
    in the size of the program. *)
From Coq Require Import Arith.
Definition search_steps (m n : nat) : nat := (4 * (m + n)) ^ (2 * m + n).
Definition presolve_steps (m n : nat) : nat := (4 * n + 2 * m + 1) * (n + m + 1) * (2 * m + 1).
(** for both one after the other, generously *)
Definition both_steps (m n : nat) : nat := presolve_steps m n + search_steps m n.
