(** * Texts in a debug build *)
From Verif Require Import SpecFixed SpecTextDebug TextPipeline TextD FileP FixedP TextDR ExFile ExFixed ExGeneral ExTextPresolve TextPresolve PipelineDQ SolverQ DebugSubG.
Local Open Scope string_scope.

(** ** Texts that meet the hypotheses *)
Lemma small_alternating : alternating false (f_columns small_file). Proof. cbn. tauto. Qed.
Lemma small_columns : columns_of small_file <> []. Proof. discriminate. Qed.
Lemma small_enough r : fenough r small_file. Proof. destruct r; apply Nat.leb_le; vm_compute; reflexivity. Qed.
Lemma small_debug r n : solve_text_debug r n 40 small = Got (Ok small_answer).
Proof. apply text_answer_ok. destruct r, n; vm_compute; reflexivity. Qed.
Lemma fixed_alternating : alternating false (f_columns fixed_file). Proof. cbn. tauto. Qed.
Lemma fixed_columns : columns_of fixed_file <> []. Proof. discriminate. Qed.
Lemma fixed_enough r : fenough r fixed_file. Proof. destruct r; apply Nat.leb_le; vm_compute; reflexivity. Qed.

(** ** Texts that a release build reads and a debug build does not *)
(** an end marker before any start marker *)
Definition marker_order : string := "
NAME          TESTPROB
OBJSENSE
  MIN
ROWS
 N  COST
 L  LIM1
 G  LIM2
 E  MYEQN
COLUMNS
    XONE      COST                 1   LIM1                 1
    XONE      LIM2                 1
    MARKER0   'MARKER'      'INTEND'
    YTWO      COST                 4   LIM1                 1
    YTWO      MYEQN               -1
    MARKER0   'MARKER'      'INTORG'
    ZTHREE    COST               0.5   LIM2                 1
    ZTHREE    MYEQN                1
RHS
    RHS1      LIM1                 5   LIM2                10
    RHS1      MYEQN                7
RANGES
    RNG1      LIM1               2.5
BOUNDS
 UP BND1      XONE                 4
 LO BND1      YTWO                -1
 UP BND1      YTWO                 1
 FR BND1      ZTHREE
ENDATA
".
(** a coefficient that is zero *)
Definition zero_entry : string := "
NAME          TESTPROB
OBJSENSE
  MIN
ROWS
 N  COST
 L  LIM1
 G  LIM2
 E  MYEQN
COLUMNS
    XONE      COST                 1   LIM1                 1
    XONE      LIM2                 1   MYEQN                0
    MARKER0   'MARKER'      'INTORG'
    YTWO      COST                 4   LIM1                 1
    YTWO      MYEQN               -1
    MARKER0   'MARKER'      'INTEND'
    ZTHREE    COST               0.5   LIM2                 1
    ZTHREE    MYEQN                1
RHS
    RHS1      LIM1                 5   LIM2                10
    RHS1      MYEQN                7
RANGES
    RNG1      LIM1               2.5
BOUNDS
 UP BND1      XONE                 4
 LO BND1      YTWO                -1
 UP BND1      YTWO                 1
 FR BND1      ZTHREE
ENDATA
".
(** a column in two places *)
Definition split_column : string := "
NAME          TESTPROB
OBJSENSE
  MIN
ROWS
 N  COST
 L  LIM1
 G  LIM2
 E  MYEQN
COLUMNS
    XONE      COST                 1   LIM1                 1
    MARKER0   'MARKER'      'INTORG'
    YTWO      COST                 4   LIM1                 1
    YTWO      MYEQN               -1
    MARKER0   'MARKER'      'INTEND'
    ZTHREE    COST               0.5   LIM2                 1
    ZTHREE    MYEQN                1
    XONE      LIM2                 1
RHS
    RHS1      LIM1                 5   LIM2                10
    RHS1      MYEQN                7
RANGES
    RNG1      LIM1               2.5
BOUNDS
 UP BND1      XONE                 4
 LO BND1      YTWO                -1
 UP BND1      YTWO                 1
 FR BND1      ZTHREE
ENDATA
".
(** a right-hand side given twice, for a row with a range *)
Definition two_sides : string := "
NAME          TESTPROB
OBJSENSE
  MIN
ROWS
 N  COST
 L  LIM1
 G  LIM2
 E  MYEQN
COLUMNS
    XONE      COST                 1   LIM1                 1
    XONE      LIM2                 1
    MARKER0   'MARKER'      'INTORG'
    YTWO      COST                 4   LIM1                 1
    YTWO      MYEQN               -1
    MARKER0   'MARKER'      'INTEND'
    ZTHREE    COST               0.5   LIM2                 1
    ZTHREE    MYEQN                1
RHS
    RHS1      LIM1                 5   LIM2                10
    RHS1      MYEQN                7
    RHS2      LIM1                 5
RANGES
    RNG1      LIM1               2.5
BOUNDS
 UP BND1      XONE                 4
 LO BND1      YTWO                -1
 UP BND1      YTWO                 1
 FR BND1      ZTHREE
ENDATA
".
Lemma marker_order_release b r n : solve_text b r n 40 marker_order = Got (Ok small_answer).
Proof. apply text_answer_ok. destruct b, r, n; vm_compute; reflexivity. Qed.
Lemma marker_order_debug r n fuel : solve_text_debug r n fuel marker_order = Crashed. Proof. vm_compute. reflexivity. Qed.
Lemma zero_entry_release b r n : solve_text b r n 40 zero_entry = Got (Ok small_answer).
Proof. apply text_answer_ok. destruct b, r, n; vm_compute; reflexivity. Qed.
Lemma zero_entry_debug r n fuel : solve_text_debug r n fuel zero_entry = Crashed. Proof. vm_compute. reflexivity. Qed.
Lemma two_sides_release b r n : solve_text b r n 40 two_sides = Got (Ok small_answer).
Proof. apply text_answer_ok. destruct b, r, n; vm_compute; reflexivity. Qed.
Lemma two_sides_debug r n fuel : solve_text_debug r n fuel two_sides = Crashed. Proof. vm_compute. reflexivity. Qed.
Lemma split_column_release : exists s, solve_text Checked UseLU DescentAlongObjective 40 split_column = Got (Ok (Solved_to s)) /\ map fst (s_values s) = ["XONE"; "YTWO"; "ZTHREE"; "XONE"].
Proof. eexists. split; [vm_compute; reflexivity|reflexivity]. Qed.
Lemma split_column_debug r n fuel : solve_text_debug r n fuel split_column = Crashed. Proof. vm_compute. reflexivity. Qed.
Lemma marker_order_refutes : exists text, forall r n, solve_text Checked r n 40 text = Got (Ok small_answer) /\ forall fuel, solve_text_debug r n fuel text = Crashed.
Proof. exists marker_order. intros r n. exact (conj (marker_order_release Checked r n) (marker_order_debug r n)). Qed.
Lemma zero_entry_refutes : exists text, forall r n, solve_text Checked r n 40 text = Got (Ok small_answer) /\ forall fuel, solve_text_debug r n fuel text = Crashed.
Proof. exists zero_entry. intros r n. exact (conj (zero_entry_release Checked r n) (zero_entry_debug r n)). Qed.
Lemma two_sides_refutes : exists text, forall r n, solve_text Checked r n 40 text = Got (Ok small_answer) /\ forall fuel, solve_text_debug r n fuel text = Crashed.
Proof. exists two_sides. intros r n. exact (conj (two_sides_release Checked r n) (two_sides_debug r n)). Qed.
Lemma split_column_refutes : exists text s, solve_text Checked UseLU DescentAlongObjective 40 text = Got (Ok (Solved_to s)) /\
  map fst (s_values s) = ["XONE"; "YTWO"; "ZTHREE"; "XONE"] /\ forall r n fuel, solve_text_debug r n fuel text = Crashed.
Proof. exists split_column. destruct split_column_release as (s & A & B). exists s. exact (conj A (conj B split_column_debug)). Qed.
