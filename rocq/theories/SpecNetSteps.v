(** * How many steps are enough for the programs on graphs and tables
    [v] is the number of vertices of a graph and [e] that of its arcs; a table has [h] rows and [w] columns. *)
From Coq Require Import Arith.
Definition path_steps (v e : nat) : nat := (v + e) ^ v.
Definition flow_steps (v e : nat) : nat := (v + 3 * e) ^ (v + e).
Definition range_steps (h w : nat) : nat := (h + 2 * w + 2 * (h * w)) ^ (2 * (h * w)).
