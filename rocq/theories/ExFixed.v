(** * MPS files in fixed format: examples *)
From Verif Require Import SpecFixed MpsParse NumberP TextP FileP FixedP ExParse SpecFile TextPipeline ExFile.
Local Open Scope string_scope.
Local Open Scope list_scope.

(** names with spaces, right-hand sides without a name *)
Definition fixed_sample : string := "* In fixed format
NAME          TESTPROB
ROWS
 N  COST
 L  LIM 1
 G  LIM 2   
 E  MYEQN
COLUMNS
    X ONE     COST                 1   LIM 1                1
    X ONE     LIM 2                1   
    MARKER0   'MARKER'                 'INTORG'
    YTWO      COST                 4   LIM 1                1
    YTWO      MYEQN               -1
    MARKER0   'MARKER'                 'INTEND'
    Z/THREE*  COST               0.5   MYEQN                1
RHS
              LIM 1                5   LIM 2                2
              MYEQN                7
RANGES
    RNG       LIM 1              2.5
BOUNDS
 UP BND       X ONE                4
 LO BND       YTWO                -1
 FR BND       Z/THREE*
ENDATA
".
Definition dropped : string := "NAME          SMALL
ROWS
 N  COST
 L  LIM
COLUMNS
    X         COST                 1   LIM       2.0
ENDATA
".
Definition short_bound : string := "NAME          SMALL
ROWS
 N  COST
 L  LIM
COLUMNS
    X         COST                 1   LIM                  2
BOUNDS
 FR BND       X
ENDATA
".
Definition third_column : string := "NAME          SMALL
ROWS
  N COST
  L LIM
COLUMNS
    X         COST                 1   LIM                  2
ENDATA
".
Definition left_number : string := "NAME          SMALL
ROWS
 N  COST
 L  LIM
COLUMNS
    X         COST      1              LIM                  2
ENDATA
".
Definition blank_number : string := "NAME          SMALL
ROWS
 N  COST
 L  LIM
COLUMNS
    X         COST                  
ENDATA
".
Definition fixed_file : file := {|
  f_name := "TESTPROB";
  f_sense := None;
  f_rows := [(None, "COST"); (Some KLess, "LIM 1"); (Some KGreater, "LIM 2"); (Some KEqual, "MYEQN")];
  f_columns := [
    Entries "X ONE" [("COST", q 1 1); ("LIM 1", q 1 1)]; Entries "X ONE" [("LIM 2", q 1 1)]; StartInteger;
    Entries "YTWO" [("COST", q 4 1); ("LIM 1", q 1 1)]; Entries "YTWO" [("MYEQN", q (-1) 1)]; EndInteger;
    Entries "Z/THREE*" [("COST", q 1 2); ("MYEQN", q 1 1)]];
  f_rhs := [("", [("LIM 1", q 5 1); ("LIM 2", q 2 1)]); ("", [("MYEQN", q 7 1)])];
  f_ranges := [("RNG", [("LIM 1", q 5 2)])];
  f_bounds := [(UpperContinuous (q 4 1), "BND", "X ONE"); (LowerContinuous (q (-1) 1), "BND", "YTWO"); (Free, "BND", "Z/THREE*")]
|}.
Definition fixed_nameb (s : string) : bool :=
  (String.length s <=? 8)%nat && forallb (fun c => visibleb c || Ascii.eqb c " ") (chars s) && match String.get (String.length s - 1) s with Some c => visibleb c | None => true end.
Lemma fixed_nameb_ok s : fixed_nameb s = true -> fixed_name s.
Proof.
  unfold fixed_nameb. intros H. apply andb_true_iff in H. destruct H as [H C]. apply andb_true_iff in H. destruct H as [A B]. split; [now apply Nat.leb_le|]. rewrite forallb_forall in B. split.
  - intros c I. apply B in I. apply orb_true_iff in I. destruct I as [I|I]; [left; now apply visibleb_true|right; now apply Ascii.eqb_eq].
  - intros c G. rewrite G in C. now apply visibleb_true.
Qed.
Definition fixed_firstb (s : string) : bool := match s with String c _ => visibleb c && negb (Ascii.eqb c "*") | _ => false end.
Lemma fixed_firstb_ok s : fixed_firstb s = true -> fixed_first s.
Proof.
  destruct s as [|c t]; [discriminate|]. cbn. intros H. apply andb_true_iff in H. destruct H as [A B]. exists c, t. split; [reflexivity|]. split; [now apply visibleb_true|]. intros ->. discriminate.
Qed.
Lemma fixed_file_ok : fixed_ok fixed_file.
Proof.
  constructor; [constructor| | | | |]; cbn [fixed_file f_name f_sense f_rows f_columns f_rhs f_ranges f_bounds].
  - cbn. repeat constructor; cbn; intuition discriminate.
  - cbn. repeat constructor; cbn; intuition discriminate.
  - cbn. repeat constructor; cbn; intuition discriminate.
  - cbn. repeat constructor; cbn; intuition discriminate.
  - cbn. repeat constructor; cbn; intuition discriminate.
  - intros t g c H. cbn in H. repeat (destruct H as [H|H]; [injection H as <- <- <-; intros X; exact X|]). destruct H.
  - exists "COST". split; [now left|]. intros c H. cbn in H. repeat (destruct H as [H|H]; [first [discriminate H|now injection H as <-]|]). destruct H.
  - intros c r v H. cbn in H. repeat (destruct H as [H|H]; [injection H as <- <- <-; cbn; tauto|]). destruct H.
  - intros c r v H. cbn in H. repeat (destruct H as [H|H]; [injection H as <- <- <-; cbn; tauto|]). destruct H.
  - intros c r v H. cbn in H. repeat (destruct H as [H|H]; [injection H as <- <- <-; cbn; tauto|]). destruct H.
  - intros t g c H. cbn in H. repeat (destruct H as [H|H]; [injection H as <- <- <-; cbn; tauto|]). destruct H.
  - intros k r H. cbn in H. repeat (destruct H as [H|H]; [injection H as <- <-; split; [now apply fixed_nameb_ok|split; discriminate]|]). destruct H.
  - intros c values H. cbn in H. repeat (destruct H as [H|H]; [first [discriminate H|injection H as <- <-; split; [now apply fixed_nameb_ok|now apply fixed_firstb_ok]]|]). destruct H.
  - intros g values H. cbn in H. repeat (destruct H as [H|H]; [injection H as <- <-; split; [now apply fixed_nameb_ok|right; split; [reflexivity|now apply fixed_firstb_ok]]|]). destruct H.
  - intros g values H. cbn in H. repeat (destruct H as [H|H]; [injection H as <- <-; split; [now apply fixed_nameb_ok|left; now apply fixed_firstb_ok]|]). destruct H.
  - intros t g c H. cbn in H. repeat (destruct H as [H|H]; [injection H as <- <- <-; now apply fixed_nameb_ok|]). destruct H.
Qed.
Ltac snum m w f := split; [num m w f|vm_compute; repeat constructor].
Lemma fixed_sample_spelled : fixed_spells fixed_sample fixed_file.
Proof.
  assert (T : text_of (into_lines fixed_sample) fixed_sample) by (apply text_split; vm_compute; reflexivity).
  exists (into_lines fixed_sample). split; [|exact T]. clear T.
  exists "          TESTPROB", [], (firstn 4 (skipn 2 (into_lines fixed_sample))), (firstn 1 (skipn 1 (into_lines fixed_sample))), (firstn 7 (skipn 7 (into_lines fixed_sample))), (firstn 3 (skipn 14 (into_lines fixed_sample))),
    (firstn 2 (skipn 17 (into_lines fixed_sample))), (firstn 4 (skipn 19 (into_lines fixed_sample))).
  split; [apply (spaced_split "          TESTPROB"); reflexivity|].
  split; [vm_compute; exists ""; split; [intros x []|reflexivity]|].
  split; [vm_compute; constructor; [exists 0%nat; reflexivity|]; constructor; [exists 0%nat; reflexivity|]; constructor; [exists 3%nat; reflexivity|]; constructor; [exists 0%nat; reflexivity|]; constructor|].
  split.
  { set (ls := firstn 7 _). vm_compute in ls. subst ls. cbn [fixed_file f_columns].
    constructor; [exists 0%nat; exists "1", "1"; split; [snum false [1%nat] (@None (list nat))|]; split; [snum false [1%nat] (@None (list nat))|reflexivity]|].
    constructor; [exists 3%nat; exists "1"; split; [snum false [1%nat] (@None (list nat))|reflexivity]|].
    constructor; [exists "MARKER0", 0%nat; split; [now apply fixed_nameb_ok|]; split; [now apply fixed_firstb_ok|reflexivity]|].
    constructor; [exists 0%nat; exists "4", "1"; split; [snum false [4%nat] (@None (list nat))|]; split; [snum false [1%nat] (@None (list nat))|reflexivity]|].
    constructor; [exists 0%nat; exists "-1"; split; [snum true [1%nat] (@None (list nat))|reflexivity]|].
    constructor; [exists "MARKER0", 0%nat; split; [now apply fixed_nameb_ok|]; split; [now apply fixed_firstb_ok|reflexivity]|].
    constructor; [exists 0%nat; exists "0.5", "1"; split; [snum false [0%nat] (Some [5%nat])|]; split; [snum false [1%nat] (@None (list nat))|reflexivity]|]. constructor. }
  split.
  { right. set (ls := firstn 3 (skipn 14 _)). vm_compute in ls. subst ls. eexists. split; [reflexivity|]. cbn [fixed_file f_rhs].
    constructor; [exists 0%nat; exists "5", "2"; split; [snum false [5%nat] (@None (list nat))|]; split; [snum false [2%nat] (@None (list nat))|reflexivity]|].
    constructor; [exists 0%nat; exists "7"; split; [snum false [7%nat] (@None (list nat))|reflexivity]|]. constructor. }
  split.
  { right. set (ls := firstn 2 (skipn 17 _)). vm_compute in ls. subst ls. eexists. split; [reflexivity|]. cbn [fixed_file f_ranges].
    constructor; [exists 0%nat; exists "2.5"; split; [snum false [2%nat] (Some [5%nat])|reflexivity]|]. constructor. }
  split; [|vm_compute; reflexivity].
  right. set (ls := firstn 4 (skipn 19 _)). vm_compute in ls. subst ls. eexists. split; [reflexivity|]. cbn [fixed_file f_bounds].
  constructor; [exists "4", 0%nat; split; [snum false [4%nat] (@None (list nat))|reflexivity]|].
  constructor; [exists "-1", 0%nat; split; [snum true [1%nat] (@None (list nat))|reflexivity]|].
  constructor; [exists 0%nat; reflexivity|]. constructor.
Qed.
Lemma fixed_solvable : file_solvable fixed_file.
Proof.
  constructor.
  - exact (xo_rules _ fixed_file_ok).
  - intros c r v H. cbn in H. repeat (destruct H as [H|H]; [injection H as <- <- <-; intros Z; apply qeqb_true in Z; vm_compute in Z; discriminate Z|]). destruct H.
  - cbn. repeat constructor; cbn; intuition discriminate.
  - intros g r v H. cbn in H. destruct H as [H|[]]. injection H as <- <- <-. exists "", (q 5 1). now left.
  - intros t g g' c H. cbn in H. repeat (destruct H as [H|H]; [first [discriminate H|injection H as <- <-]|]); [|destruct H]. intros H. cbn in H. repeat (destruct H as [H|H]; [first [discriminate H|now injection H as <-]|]). destruct H.
  - intros c H. cbn in H. destruct H as [<-|[<-|[<-|[]]]].
    + exists 0%Qc. split; [|intros _; apply Qcle_refl]. intros t g T. cbn in T. repeat (destruct T as [T|T]; [first [discriminate T|injection T as <- <-; cbn; discriminate]|]). destruct T.
    + exists 0%Qc. split; [|intros _; apply Qcle_refl]. intros t g T. cbn in T. repeat (destruct T as [T|T]; [first [discriminate T|injection T as <- <-; cbn; discriminate]|]). destruct T.
    + exists 0%Qc. split; [|intros _; apply Qcle_refl]. intros t g T. cbn in T. repeat (destruct T as [T|T]; [first [discriminate T|injection T as <- <-; exact I]|]). destruct T.
Qed.
Definition fixed_answer : answer := Solved_to (mk_solution (q 5 2) [("X ONE", q 7 2); ("YTWO", q (-1) 1); ("Z/THREE*", q 6 1)]).
Lemma fixed_solved b r n : solve_fixed_text b r n 40 fixed_sample = Got (Ok fixed_answer).
Proof. apply text_answer_ok. destruct b, r, n; vm_compute; reflexivity. Qed.
(** ** Texts that are not read as they should *)
Lemma dropped_read b : (exists m, parse_fixed b dropped = Got m /\ map fst (said_coefficients m) = [("X", "COST")]) /\
  exists m, parse_free b dropped = Got m /\ map fst (said_coefficients m) = [("X", "LIM"); ("X", "COST")].
Proof. split; destruct b; (eexists; split; [vm_compute; reflexivity|vm_compute; reflexivity]). Qed.
Lemma short_bound_read b : parse_fixed b short_bound = Crashed /\ exists m, parse_free b short_bound = Got m /\ said_bounds m = [(Free, "BND", "X")].
Proof. split; [destruct b; vm_compute; reflexivity|]. destruct b; (eexists; split; [vm_compute; reflexivity|vm_compute; reflexivity]). Qed.
Lemma third_column_read b : parse_fixed b third_column = Rejected Syntax /\ exists m, parse_free b third_column = Got m /\ m_cost_name m = "COST" /\ map row_name (m_rows m) = ["LIM"].
Proof. split; [destruct b; vm_compute; reflexivity|]. destruct b; (eexists; split; [vm_compute; reflexivity|vm_compute; split; reflexivity]). Qed.
Lemma left_number_read b : parse_fixed b left_number = Rejected Syntax /\ exists m, parse_free b left_number = Got m /\ map fst (said_coefficients m) = [("X", "LIM"); ("X", "COST")].
Proof. split; [destruct b; vm_compute; reflexivity|]. destruct b; (eexists; split; [vm_compute; reflexivity|vm_compute; reflexivity]). Qed.
Lemma blank_number_read b : parse_fixed b blank_number = Crashed /\ parse_free b blank_number = Rejected Syntax.
Proof. split; destruct b; vm_compute; reflexivity. Qed.
