(** * From the text of a file to its solution: model of the calls a user makes

    /repo/tests/netlib/mod.rs:47-71 without presolving: parse, convert, solve. *)
From Verif Require Export MpsParse Pipeline.

Definition solve_with (parse : string -> out mps) (r : representation) (n : rule_name) (fuel : nat) (text : string) : out (res answer) :=
  let~ m := parse text in
  let~ g := to_general m in
  Got (solve_general r n fuel g).
(** with the free format parser (/repo/src/io/mps/parse/free.rs:28-30), as `import` does (/repo/src/io/mod.rs:32-61) *)
Definition solve_text (b : build) (r : representation) (n : rule_name) (fuel : nat) (text : string) : out (res answer) := solve_with (parse_free b) r n fuel text.
(** with the fixed format parser (/repo/src/io/mps/parse/fixed.rs:25-27) *)
Definition solve_fixed_text (b : build) (r : representation) (n : rule_name) (fuel : nat) (text : string) : out (res answer) := solve_with (parse_fixed b) r n fuel text.
