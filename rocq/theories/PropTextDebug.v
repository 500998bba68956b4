(** * Solving the text of a file in a debug build (C51)

    [solve_text_debug] and [solve_fixed_text_debug] (TextD.v) read a text, convert it and solve it as [solve_text] and
    [solve_fixed_text] (TextPipeline.v) do, but with the assertions of the source in the reader, the conversion and the
    solver.  An assertion that fails is a panic.  [Checked] is arithmetic that panics on overflow, as in a debug build. *)
From Verif Require Import SpecFixed SpecTextDebug TextPipeline TextPresolve TextD FileP FixedP TextDP TextDQ TextDR DebugSubG ExFile ExFixed ExTextDebug.
Local Open Scope Qc_scope.

(** A debug build gives the answer of a release build, for the text of every program with a column whose markers
    alternate.  With the rows of the inverse there has to be an inequality or a coefficient, with the LU decomposition
    there have to be two inequalities ([fenough], SpecTextDebug.v). *)
Theorem C51_partial : forall f text r n fuel, file_ok f -> file_solvable f -> spells text f -> alternating false (f_columns f) ->
  columns_of f <> [] -> fenough r f -> solve_text_debug r n fuel text = solve_text Checked r n fuel text.
Proof. exact (fun f text r n fuel OK FS SP A NE EN => layout_solved free f text r n fuel FS (free_layout Checked f text OK SP) A NE EN). Qed.
Print Assumptions C51_partial.
(** The same for the fixed format. *)
Theorem C51_fixed_partial : forall f text r n fuel, fixed_ok f -> file_solvable f -> fixed_spells text f -> alternating false (f_columns f) ->
  columns_of f <> [] -> fenough r f -> solve_fixed_text_debug r n fuel text = solve_fixed_text Checked r n fuel text.
Proof. exact (fun f text r n fuel OK FS SP A NE EN => layout_solved fixed f text r n fuel FS (fixed_layout Checked f text OK SP) A NE EN). Qed.
Print Assumptions C51_fixed_partial.

(** ** Any text whatever *)
(** If a debug build gives an answer, that is the answer of the release build. *)
Theorem C51_answers : forall r n fuel text a, solve_text_debug r n fuel text = Got (Ok a) -> solve_text Checked r n fuel text = Got (Ok a).
Proof. exact (fun r n fuel text a => text_sub (parse_free Checked) parse_free_d r n fuel text a (parse_or_crash free text)). Qed.
Print Assumptions C51_answers.
Theorem C51_fixed_answers : forall r n fuel text a, solve_fixed_text_debug r n fuel text = Got (Ok a) -> solve_fixed_text Checked r n fuel text = Got (Ok a).
Proof. exact (fun r n fuel text a => text_sub (parse_fixed Checked) parse_fixed_d r n fuel text a (parse_or_crash fixed text)). Qed.
Print Assumptions C51_fixed_answers.
(** So too with presolving, whichever of its assertions are evaluated. *)
Theorem C51_presolved_answers : forall on r n fuel text a, presolve_with_d on parse_free_d r n fuel text = Got (Ok a) -> presolve_text Checked r n fuel text = Got (Ok a).
Proof. exact (fun on r n fuel text a => text_presolved_sub on (parse_free Checked) parse_free_d r n fuel text a (parse_or_crash free text)). Qed.
Print Assumptions C51_presolved_answers.
(** The assertions of reading and converting do nothing but panic: otherwise the program, or the error, is the same. *)
Theorem C51_or_panics : forall text,
  (let~ m := parse_free_d text in to_general_d m) = Crashed \/
  (let~ m := parse_free_d text in to_general_d m) = (let~ m := parse_free Checked text in to_general m).
Proof. exact (fun text => solve_or_crash (parse_free Checked) parse_free_d text (parse_or_crash free text)). Qed.
Print Assumptions C51_or_panics.
Theorem C51_fixed_or_panics : forall text,
  (let~ m := parse_fixed_d text in to_general_d m) = Crashed \/
  (let~ m := parse_fixed_d text in to_general_d m) = (let~ m := parse_fixed Checked text in to_general m).
Proof. exact (fun text => solve_or_crash (parse_fixed Checked) parse_fixed_d text (parse_or_crash fixed text)). Qed.
Print Assumptions C51_fixed_or_panics.
(** When a release build reads a program [g] from a text, a debug build reads it exactly when the markers alternate,
    the columns have different names, no coefficient is zero and a row with a range has one right-hand side. *)
Theorem C51_reads : forall text m g, parse_free Checked text = Got m -> to_general m = Got g ->
  exists f, loosely_spells text f /\ file_consistent f /\
  ((let~ m := parse_free_d text in to_general_d m) = Got g <-> alternating false (f_columns f) /\ clean m).
Proof. exact free_exact. Qed.
Print Assumptions C51_reads.
Theorem C51_fixed_reads : forall text m g, parse_fixed Checked text = Got m -> to_general m = Got g ->
  exists f, fixed_loosely_spells text f /\ file_consistent f /\
  ((let~ m := parse_fixed_d text in to_general_d m) = Got g <-> alternating false (f_columns f) /\ clean m).
Proof. exact fixed_exact. Qed.
Print Assumptions C51_fixed_reads.

(** ** Texts that a release build solves and on which a debug build panics *)
(** an end marker before any start marker (parse/mod.rs:398) *)
Theorem C51_marker_refuted : exists text, forall r n, solve_text Checked r n 40 text = Got (Ok small_answer) /\ forall fuel, solve_text_debug r n fuel text = Crashed.
Proof. exact marker_order_refutes. Qed.
Print Assumptions C51_marker_refuted.
(** a coefficient that is zero (linear_algebra/matrix.rs:391-411) *)
Theorem C51_zero_refuted : exists text, forall r n, solve_text Checked r n 40 text = Got (Ok small_answer) /\ forall fuel, solve_text_debug r n fuel text = Crashed.
Proof. exact zero_entry_refutes. Qed.
Print Assumptions C51_zero_refuted.
(** the right-hand side of a row with a range, given twice (convert.rs:486) *)
Theorem C51_twice_refuted : exists text, forall r n, solve_text Checked r n 40 text = Got (Ok small_answer) /\ forall fuel, solve_text_debug r n fuel text = Crashed.
Proof. exact two_sides_refutes. Qed.
Print Assumptions C51_twice_refuted.
(** a column in two places (parse/mod.rs:506): a release build solves a program with two columns of the same name *)
Theorem C51_split_refuted : exists text s, solve_text Checked UseLU DescentAlongObjective 40 text = Got (Ok (Solved_to s)) /\
  map fst (s_values s) = ["XONE"; "YTWO"; "ZTHREE"; "XONE"]%string /\ forall r n fuel, solve_text_debug r n fuel text = Crashed.
Proof. exact split_column_refutes. Qed.
Print Assumptions C51_split_refuted.

(** ** The hypotheses are met *)
Example C51_met : forall r n, file_ok small_file /\ file_solvable small_file /\ spells small small_file /\ alternating false (f_columns small_file) /\
  columns_of small_file <> [] /\ fenough r small_file /\ solve_text_debug r n 40 small = Got (Ok small_answer).
Proof. exact (fun r n => conj small_ok (conj small_solvable (conj small_spelled (conj small_alternating (conj small_columns (conj (small_enough r) (small_debug r n))))))). Qed.
Example C51_fixed_met : forall r, fixed_ok fixed_file /\ file_solvable fixed_file /\ fixed_spells fixed_sample fixed_file /\ alternating false (f_columns fixed_file) /\
  columns_of fixed_file <> [] /\ fenough r fixed_file.
Proof. exact (fun r => conj fixed_file_ok (conj fixed_solvable (conj fixed_sample_spelled (conj fixed_alternating (conj fixed_columns (fixed_enough r)))))). Qed.
