(** * From the text of a file to its solution with presolving: model of the calls a user makes

    /repo/tests/netlib/mod.rs:47-71 and /repo/tests/unicamp/mod.rs:47-85: parse, convert, presolve, solve what remains.
    A verdict of presolving is an answer here; these two functions stop with a panic for the verdicts infeasible and
    unbounded, and the first one also when presolving finds the solution. *)
From Verif Require Export TextPipeline Presolve SafeRun.

Definition presolve_with (parse : string -> out mps) (r : representation) (n : rule_name) (fuel : nat) (text : string) : out (res answer) :=
  let~ m := parse text in
  let~ g := to_general m in
  Got (presolve_and_solve r n fuel g).
(** with the free format parser (/repo/src/io/mps/mod.rs:41-45) *)
Definition presolve_text (b : build) (r : representation) (n : rule_name) (fuel : nat) (text : string) : out (res answer) := presolve_with (parse_free b) r n fuel text.
(** with the fixed format parser (/repo/src/io/mps/parse/fixed.rs:25-27) *)
Definition presolve_fixed_text (b : build) (r : representation) (n : rule_name) (fuel : nat) (text : string) : out (res answer) := presolve_with (parse_fixed b) r n fuel text.

(** the run of presolving on the program in the text is safe (SafeRun.v); not a function of the code *)
Definition safe_with (parse : string -> out mps) (fuel : nat) (text : string) : bool :=
  match parse text with Got m => match to_general m with Got g => safe_run fuel g | _ => true end | _ => true end.
Definition safe_text (b : build) (fuel : nat) (text : string) : bool := safe_with (parse_free b) fuel text.
Definition safe_fixed_text (b : build) (fuel : nat) (text : string) : bool := safe_with (parse_fixed b) fuel text.
