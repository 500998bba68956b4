(** * Rotations: the specification side (C15) *)
From Coq Require Import Arith.

(** among [i, .., m - 1], the first number to the end and the others one down *)
Definition down (i m x : nat) : nat := if x <? i then x else if x =? i then m - 1 else x - 1.
(** among [i, .., m - 1], the last number to the beginning and the others one up *)
Definition up (i m x : nat) : nat := if x <? i then x else if x =? m - 1 then i else x + 1.
